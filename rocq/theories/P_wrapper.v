(** C46: what the rustc wrapper says when it does not run rustc. *)
From Verif Require Import M_base M_wrapper M_driver S_driver S_wrapper L_wrapper X_build X_driver X_wrapper.
Local Open Scope string_scope.
Local Open Scope list_scope.

(** C46: the process that cargo starts instead of rustc either names the missing argument, in a single line that begins with `error: ` (after the
    lines of C48), and exits with code 1 without running anything; or it runs rustc once and passes on its exit code, -1 for a signal. *)
Theorem C46_reason_is_given :
  forall demangle w exe rustc args, w_wrapper w = true -> w_argv w = exe :: rustc :: args -> Forall (fun a => w_utf8 w a = true) (w_argv w) ->
  exists opts ws tail, Forall2 written opts ws /\ args = concat ws ++ tail /\
  ((exists m, lacking tail m /\ main demangle w = ([EErr (lit "error: " ++ m)], 1%Z)) \/
   (tail = [] /\ latest crate_of opts None /\ main demangle w = ([EErr (lit "error: missing `--crate-name` argument")], 1%Z)) \/
   (tail = [] /\ latest crate_of opts (Some (lit "compiler_builtins")) /\ latest out_of opts None /\
      exists t, commands t = [] /\ printed t = [] /\ main demangle w = (t ++ [EErr (lit "error: missing `--out-dir` argument")], 1%Z)) \/
   (tail = [] /\ exists all, commands (fst (main demangle w)) = [(rustc, all)] /\
      match w_rustc w rustc all with
      | Ret code => snd (main demangle w) = match code with Some c => c | None => (-1)%Z end
      | Fail m => snd (main demangle w) = 1%Z /\ exists t, fst (main demangle w) = t ++ [EErr (lit "error: " ++ m)]
      | _ => snd (main demangle w) = 101%Z
      end)).
Proof. exact reason. Qed.
Print Assumptions C46_reason_is_given.
Example C46_example_reasons :
  main idd (wrap_world ["tool"; "rustc"; "--crate-name"; "a"; "--out-dir"] (fun _ _ => Ret (Some 0%Z))) = ([EErr (lit "error: missing argument for `--out-dir`")], 1%Z) /\
  main idd (wrap_world ["tool"; "rustc"; "-C"; "extra-filename"; "x"] (fun _ _ => Ret (Some 0%Z))) = ([EErr (lit "error: missing value for `-Cextra-filename`")], 1%Z) /\
  main idd (wrap_world ["tool"; "rustc"; "-vV"] (fun _ _ => Ret (Some 0%Z))) = ([EErr (lit "error: missing `--crate-name` argument")], 1%Z) /\
  main idd (wrap_world ["tool"; "rustc"; "--extern"; "compiler_builtins=x.rlib"; "--crate-name"; "compiler_builtins"] (fun _ _ => Ret (Some 0%Z))) =
    ([EErr (lit "@CARGO_CALL_STACK:compiler_builtins_rlib_path@x.rlib"); EErr (lit "error: missing `--out-dir` argument")], 1%Z) /\
  main idd (wrap_world ["tool"; "rustc"; "--crate-name"; "a"] (fun _ _ => Ret None)) = ([ECmd (lit "rustc") [] (map lit ["-Zemit-stack-sizes"; "--crate-name"; "a"])], (-1)%Z).
Proof. exact wrap_examples. Qed.
