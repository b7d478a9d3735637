(** Specification vocabulary for how a run ends after the build was started. *)
From Verif Require Import M_base M_thumb M_ty M_parse M_build M_run M_log M_wrapper M_driver S_names S_build S_driver.

(** What is the last thing on stderr: nothing, an error, or the message of a panic (whose text is not looked at). *)
Inductive final := Done | Says (m : str) | Crash.
(** How the process ends, and with which code, when a step does not succeed. *)
Inductive fails {A} : outcome A -> final -> Z -> Prop :=
| fa_error m : fails (Fail m) (Says m) 1
| fa_panic s : fails (Panic s) Crash 101
| fa_fuel : fails Fuel Crash 101.

(** The build ended with [code] ([None]: killed by a signal) and wrote the lines [ls], which say [ns]. *)
Definition cargo_wrote (w : world) (command : list str) (code : option Z) (ls : list str) (ns : list note) : Prop :=
  exists text, w_cargo w command = Ret (text, code) /\ lines_of text ls /\ Forall2 says_note ls ns.
Definition legible (w : world) (ls : list str) : Prop := forall l, In l ls -> w_utf8 w l = true.
(** The build succeeded; it was last reported that compiler_builtins is in [rlib] and [ll]; [echo] is what else was written. *)
Definition builds (w : world) (command : list str) (rlib ll : str) (echo : list str) : Prop :=
  exists ls ns, cargo_wrote w command (Some 0%Z) ls ns /\ legible w ls /\ latest rlib_of ns (Some rlib) /\ latest ll_of ns (Some ll) /\ echo = select text_of ns.

(** The symbol table, which is read for Thumb only. *)
Inductive symtab_is (w : world) (file : str) (p : prog) : outcome (list (N * str)) -> Prop :=
| sy_other : is_thumb (pg_target p) = false -> symtab_is w file p (Ret [])
| sy_thumb path elf : is_thumb (pg_target p) = true -> executable w file path -> w_read w path = Ret elf -> symtab_is w file p (w_symtab w elf).
(** What comes before the symbol table is understood: functions have names, and the statements are understood. *)
Definition early_ok (p : prog) : Prop :=
  (forall x, In x (pg_defined p) -> real_names x <> []) /\
  forall tr pre i st post, trace p (pg_defines p) tr -> tr = pre ++ (i, st) :: post -> stmt_ok p pre st.

(** How the analysis of the executable of [file] ends, with compiler_builtins in [rlib] and [ll]: with [f] as the last thing on stderr, [out] on
    stdout, and the exit code [c]. *)
Inductive analysis_ends (demangle : str -> str) (w : world) (target file rlib ll : str) : final -> list str -> Z -> Prop :=
(* a file, other than the symbol table, cannot be read or parsed *)
| an_files f c : fails (load (without_symtab w) target file rlib ll) f c -> analysis_ends demangle w target file rlib ll f [] c
(* the symbol table cannot be read *)
| an_symtab p s f c : load (without_symtab w) target file rlib ll = Ret p -> symtab_is w file p s -> early_ok p -> fails s f c ->
    analysis_ends demangle w target file rlib ll f [] c
(* but what comes before was not understood *)
| an_early p s : load (without_symtab w) target file rlib ll = Ret p -> symtab_is w file p s -> ~ early_ok p -> (forall l, s <> Ret l) ->
    analysis_ends demangle w target file rlib ll Crash [] 101
(* the program has no report: it is not understood, or its names cannot be shortened (C69) *)
| an_program p : load w target file rlib ll = Ret p ->
    (forall text, output demangle (w_orders w) (a_start (w_args w)) (a_format (w_args w)) p <> Ret text) -> analysis_ends demangle w target file rlib ll Crash [] 101
(* stdout refuses a byte *)
| an_stdout p text out e : load w target file rlib ll = Ret p ->
    output demangle (w_orders w) (a_start (w_args w)) (a_format (w_args w)) p = Ret text -> received (w_fault w) text out (Some e) ->
    analysis_ends demangle w target file rlib ll (Says e) [out] 1
| an_done p text : load w target file rlib ll = Ret p ->
    output demangle (w_orders w) (a_start (w_args w)) (a_format (w_args w)) p = Ret text -> received (w_fault w) text text None ->
    analysis_ends demangle w target file rlib ll Done [text] 0.
(** [ends demangle w command target file echo f out c]: a run that starts the build ends with the exit code [c], after it has copied [echo] to stderr,
    with [f] as the last thing on stderr, and with [out] on stdout. *)
Inductive ends (demangle : str -> str) (w : world) (command : list str) (target file : str) : list str -> final -> list str -> Z -> Prop :=
(* cargo cannot be started *)
| en_spawn f c : fails (w_cargo w command) f c -> ends demangle w command target file [] f [] c
(* a line of what it writes is not text *)
| en_bytes code ls ns a l b : cargo_wrote w command code ls ns -> ls = a ++ l :: b -> legible w a -> w_utf8 w l = false ->
    ends demangle w command target file (select text_of (firstn (length a) ns)) (Says (lit "stream did not contain valid UTF-8")) [] 1
(* the build fails *)
| en_build code ls ns : cargo_wrote w command code ls ns -> legible w ls -> code <> Some 0%Z ->
    ends demangle w command target file (select text_of ns) Done [] (match code with Some c => c | None => 1%Z end)
(* nothing is reported on compiler_builtins *)
| en_unlinked ls ns : cargo_wrote w command (Some 0%Z) ls ns -> legible w ls -> latest rlib_of ns None \/ latest ll_of ns None ->
    ends demangle w command target file (select text_of ns) Crash [] 101
| en_analysis rlib ll echo f out c : builds w command rlib ll echo -> analysis_ends demangle w target file rlib ll f out c ->
    ends demangle w command target file echo f out c.
(** The lines on stderr. *)
Definition last_words (echo : list str) (f : final) (errs : list str) : Prop :=
  match f with
  | Done => errs = echo
  | Says m => errs = echo ++ [lit "error: " ++ m]
  | Crash => exists m, errs = echo ++ [m]
  end.
