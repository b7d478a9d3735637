(** Examples: the tool started by cargo as `rustc` wrapper. *)
From Verif Require Import M_base M_wrapper M_driver S_driver S_wrapper X_build X_driver.
Local Open Scope string_scope.
Local Open Scope list_scope.

Definition wrap_world (argv : list string) (f : str -> list str -> outcome (option Z)) : world :=
  let w := ex_w in
  mkWorld true (map lit argv) f (w_hash w) (w_host w) (w_meta w) (w_override w) (w_args w) (w_project w) (w_root w) (w_cfg w) (w_exe w) (w_set_times w)
    (w_exists w) (w_walk w) (w_cargo w) (w_utf8 w) (w_path w) (w_dir w) (w_read w) (w_object w) (w_archive w) (w_executable w) (w_symtab w) (w_text w) (w_defines_order w) (w_orders w) (w_fault w).
Lemma wrap_examples :
  main idd (wrap_world ["tool"; "rustc"; "--crate-name"; "a"; "--out-dir"] (fun _ _ => Ret (Some 0%Z))) = ([EErr (lit "error: missing argument for `--out-dir`")], 1%Z) /\
  main idd (wrap_world ["tool"; "rustc"; "-C"; "extra-filename"; "x"] (fun _ _ => Ret (Some 0%Z))) = ([EErr (lit "error: missing value for `-Cextra-filename`")], 1%Z) /\
  main idd (wrap_world ["tool"; "rustc"; "-vV"] (fun _ _ => Ret (Some 0%Z))) = ([EErr (lit "error: missing `--crate-name` argument")], 1%Z) /\
  main idd (wrap_world ["tool"; "rustc"; "--extern"; "compiler_builtins=x.rlib"; "--crate-name"; "compiler_builtins"] (fun _ _ => Ret (Some 0%Z))) =
    ([EErr (lit "@CARGO_CALL_STACK:compiler_builtins_rlib_path@x.rlib"); EErr (lit "error: missing `--out-dir` argument")], 1%Z) /\
  main idd (wrap_world ["tool"; "rustc"; "--crate-name"; "a"] (fun _ _ => Ret None)) = ([ECmd (lit "rustc") [] (map lit ["-Zemit-stack-sizes"; "--crate-name"; "a"])], (-1)%Z).
Proof. repeat split. Qed.
