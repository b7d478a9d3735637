(** Properties of the cooperation of the two processes: the wrapper around the compiler and the driver. *)
From Verif Require Import M_base M_names M_thumb M_parse M_build M_run M_wrapper M_driver S_build S_run S_driver S_pair L_pair X_build X_driver X_pair.
Local Open Scope string_scope.
Local Open Scope list_scope.

(** C85: the files that are analysed are those of the last run of the compiler that compiles compiler_builtins, and of the last
    option that links with it. *)
Theorem C85_files_of_the_last_compilation :
  forall demangle w t c command ns code exe rustc cs f, sane w -> main demangle w = (t, c) -> In (lit "cargo", command) (commands t) ->
  w_cargo w command = Ret (concat (map (fun n => note_line n ++ ["010"%char]) ns), code) -> Forall note_ok ns -> (forall n, In n ns -> w_utf8 w (note_line n) = true) ->
  Forall works cs -> Forall (passes (w_utf8 w) exe rustc) cs -> reported_by (w_utf8 w) exe rustc cs f ns -> c = 0%Z ->
  exists target file rlib ll p out before last after,
    latest links_builtins (concat (map cp_opts cs)) (Some rlib) /\
    cs = before ++ last :: after /\ compiles_builtins last ll /\ (forall c', In c' after -> ~ latest crate_of (cp_opts c') (Some builtins)) /\
    analyses w target file rlib ll p /\ output demangle (w_orders w) (a_start (w_args w)) (a_format (w_args w)) p = Ret out /\ printed t = [out].
Proof. exact pair_run. Qed.
Print Assumptions C85_files_of_the_last_compilation.

Example C85_example : sane ex_w /\ Forall works ex_compiles /\ Forall (passes (w_utf8 ex_w) (lit "tool") (lit "rustc")) ex_compiles /\ reported_by (w_utf8 ex_w) (lit "tool") (lit "rustc") ex_compiles (fun _ _ _ => Ret (Some 0%Z)) ex_notes /\ Forall note_ok ex_notes /\
  (exists t command, main idd ex_w = (t, 0%Z) /\ In (lit "cargo", command) (commands t) /\ w_cargo ex_w command = Ret (concat (map (fun n => note_line n ++ ["010"%char]) ex_notes), Some 0%Z)) /\
  latest links_builtins (concat (map cp_opts ex_compiles)) (Some (lit "t/cb.rlib")) /\ exists c, In c ex_compiles /\ compiles_builtins c (lit "t/compiler_builtins-3f.ll").
Proof. exact pair_example. Qed.
