(** Properties C68 and C69: the programs and runs for which the tool succeeds. *)
From Verif Require Import M_base M_stack M_graph M_names M_thumb M_ty M_parse M_render M_build M_run M_wrapper M_driver.
From Verif Require Import S_names S_graph S_render S_build S_run S_driver X_build X_driver L_run L_run2 L_build9 L_driver3 L_total X_total.
Local Open Scope list_scope.

(** C68: the call graph is built exactly for the programs which the tool understands. *)
Theorem C68_graph_is_built_exactly_when_understood :
  forall demangle o p, wf_prog p -> ((exists b, build demangle o p = Ret b) <-> understood p).
Proof. exact build_iff. Qed.
Print Assumptions C68_graph_is_built_exactly_when_understood.
Example C68_example : wf_prog p2 /\ understood p2 /\ wf_prog p_bug /\ ~ understood p_bug.
Proof. exact p2_understood. Qed.
(** Whether a program is understood depends on the order of its definitions, which are kept in a hash map: a program which calls
    `memcmp` under a cast and by name, without defining it. *)
Theorem C68_understood_in_any_order_refuted :
  exists p q, wf_prog p /\ wf_prog q /\ same_prog p q /\ (exists b, build idd o_id p = Ret b) /\ exists msg, build idd o_id q = Panic msg.
Proof. exact memcmp_twice. Qed.
Print Assumptions C68_understood_in_any_order_refuted.
(** There are no others. *)
Theorem C68_understood_in_any_order_partial :
  forall p q, wf_prog p -> same_prog p q ->
  (forall i k, body p i (BitcastCall (Some memcmp)) -> body p k (DirectCall memcmp) -> (exists j, live p memcmp j) \/ In memcmp (pg_undefined p)) ->
  (understood p <-> understood q).
Proof. exact understood_same. Qed.
Print Assumptions C68_understood_in_any_order_partial.
Example C68_order_example : wf_prog p3 /\ same_prog p3 p3' /\ pg_defines p3 <> pg_defines p3' /\
  forall i k, body p3 i (BitcastCall (Some memcmp)) -> body p3 k (DirectCall memcmp) -> (exists j, live p3 memcmp j) \/ In memcmp (pg_undefined p3).
Proof. split; [apply orders_example|]. split; [apply orders_example|]. split; [apply orders_example | exact p3_memcmp]. Qed.

(** C69: the build is started exactly when the toolchain is supported, one artifact is chosen, and the questions to cargo
    and rustc are answered. *)
Theorem C69_build_is_started_exactly_when :
  forall demangle w t c, w_wrapper w = false -> main demangle w = (t, c) ->
  ((exists command, In (lit "cargo", command) (commands t)) <->
   w_meta w = Ret tt /\ accepted w /\ (exists file, one_artifact (w_args w) file) /\
   exists config, w_project w = Ret config /\ (exists cfg, w_cfg w (target_of w config) = Ret cfg /\ w_utf8 w cfg = true) /\ (exists exe, w_exe w = Ret exe) /\ exists r, touches w r).
Proof. exact build_started. Qed.
Print Assumptions C69_build_is_started_exactly_when.
(** The files are loaded exactly when they can be read and parsed. *)
Theorem C69_files_are_loaded_exactly_when :
  forall w target file rlib ll, sane w ->
  ((exists p, load w target file rlib ll = Ret p) <-> exists p, analyses w target file rlib ll p).
Proof. exact load_iff. Qed.
Print Assumptions C69_files_are_loaded_exactly_when.
(** C69, partial (messages as in C48; one void type and, with a start point, a graph that does not depend on iteration orders, as in
    C43): the exit code is 0 exactly when the build succeeds, compiler_builtins was linked, the program is one which the tool
    understands, the names in view can be shortened, and stdout accepts the output. *)
Theorem C69_success_exactly_when_understood_partial :
  forall demangle w t c command ns code, sane w -> main demangle w = (t, c) -> In (lit "cargo", command) (commands t) ->
  w_cargo w command = Ret (concat (map (fun n => note_line n ++ ["010"%char]) ns), code) -> Forall note_ok ns -> (forall n, In n ns -> w_utf8 w (note_line n) = true) ->
  (forall target file rlib ll p, In (lit "rustc", [lit "--print=cfg"; lit "--target"; target]) (commands t) -> one_artifact (w_args w) file ->
     latest rlib_of ns (Some rlib) -> latest ll_of ns (Some ll) -> load w target file rlib ll = Ret p ->
     one_void p /\ (a_start (w_args w) = None \/ stable p)) ->
  (c = 0%Z <-> code = Some 0%Z /\ exists target file rlib ll p, In (lit "rustc", [lit "--print=cfg"; lit "--target"; target]) (commands t) /\
     one_artifact (w_args w) file /\ latest rlib_of ns (Some rlib) /\ latest ll_of ns (Some ll) /\ load w target file rlib ll = Ret p /\
     understood p /\ names_known demangle p (a_start (w_args w)) /\
     forall text k, output demangle (w_orders w) (a_start (w_args w)) (a_format (w_args w)) p = Ret text -> k < length text -> w_fault w k = None).
Proof. exact exits_well. Qed.
Print Assumptions C69_success_exactly_when_understood_partial.
(** These conditions always suffice. *)
Theorem C69_understood_programs_succeed_partial :
  forall demangle w t c command ns, sane w -> main demangle w = (t, c) -> In (lit "cargo", command) (commands t) ->
  w_cargo w command = Ret (concat (map (fun n => note_line n ++ ["010"%char]) ns), Some 0%Z) -> Forall note_ok ns -> (forall n, In n ns -> w_utf8 w (note_line n) = true) ->
  forall target file rlib ll p, In (lit "rustc", [lit "--print=cfg"; lit "--target"; target]) (commands t) ->
  one_artifact (w_args w) file -> latest rlib_of ns (Some rlib) -> latest ll_of ns (Some ll) -> load w target file rlib ll = Ret p ->
  understood p -> names_known demangle p (a_start (w_args w)) ->
  (forall text k, output demangle (w_orders w) (a_start (w_args w)) (a_format (w_args w)) p = Ret text -> k < length text -> w_fault w k = None) -> c = 0%Z.
Proof. exact exits_well_start. Qed.
Print Assumptions C69_understood_programs_succeed_partial.
Example C69_example : sane ex_w /\ Forall note_ok ex_notes /\ (exists t, main idd ex_w = (t, 0%Z) /\ a_start (w_args ex_w) = None /\ (exists command, In (lit "cargo", command) (commands t)) /\
  (forall command, w_cargo ex_w command = Ret (concat (map (fun n => note_line n ++ ["010"%char]) ex_notes), Some 0%Z)) /\
  (forall target file rlib ll p, In (lit "rustc", [lit "--print=cfg"; lit "--target"; target]) (commands t) -> one_artifact (w_args ex_w) file ->
     latest rlib_of ex_notes (Some rlib) -> latest ll_of ex_notes (Some ll) -> load ex_w target file rlib ll = Ret p ->
     one_void p)) /\
  wf_prog ex_p /\ understood ex_p /\ names_known idd ex_p None /\ (forall k, w_fault ex_w k = None) /\
  (exists cfg, w_cfg ex_w (target_of ex_w None) = Ret cfg /\ w_utf8 ex_w cfg = true) /\ touches ex_w (Some (lit "/w/src/main.rs")).
Proof.
  split; [apply ex_sane|]. split; [exact ex_notes_ok|]. split; [exact ex_success|]. split; [exact (proj1 ex_understood)|]. split; [exact (proj1 (proj2 ex_understood))|].
  split; [exact (proj2 (proj2 ex_understood))|]. split; [reflexivity|]. split; [eexists; split; reflexivity | exact ex_touches].
Qed.
