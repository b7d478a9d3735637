(** What the rustc wrapper says when it does not run rustc. *)
From Verif Require Import M_base M_wrapper S_driver.
Local Open Scope string_scope.
Local Open Scope list_scope.

(** [lacking tail m]: the arguments end with an option whose value is missing, and [m] names it. *)
Inductive lacking : list str -> str -> Prop :=
| la_value a : In a (map lit ["--extern"; "--crate-name"; "--out-dir"; "-C"]) -> lacking [a] (lit "missing argument for `" ++ a ++ lit "`")
| la_extra1 r : lacking (lit "-Cextra-filename" :: r) (lit "missing value for `-Cextra-filename`")
| la_extra2 r : lacking (lit "-C" :: lit "extra-filename" :: r) (lit "missing value for `-Cextra-filename`").
