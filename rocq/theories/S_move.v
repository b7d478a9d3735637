(** The same program at other addresses. *)
From Verif Require Import M_base M_stack M_graph M_thumb M_ty M_parse M_build M_wrapper M_driver.
Local Open Scope N_scope.

(** [moved d p]: every address of [p] is [d] more; the instructions are the same. *)
Definition up {A} (d : N) (x : N * A) : N * A := (fst x + d, snd x).
Definition moved (d : N) (p : prog) : prog :=
  mkProg (pg_target p) (pg_defines p) (pg_declares p) (pg_sizes p) (map (up d) (pg_defined p)) (pg_undefined p) (map (up d) (pg_tags p))
    (option_map (up d) (pg_text p)).
(** There is room for the machine code at the new addresses. *)
Record room (d : N) (p : prog) : Prop := {
  rm_defined : forall a s, In (a, s) (pg_defined p) -> a + d < 2 ^ 32;
  rm_tags : forall a t, In (a, t) (pg_tags p) -> a + d < 2 ^ 32;
  rm_text : forall a text, pg_text p = Some (a, text) -> a + d + N.of_nat (length text) < 2 ^ 32
}.
(** [relinked d w]: every executable has its symbols and its code [d] further up; nothing else is different. *)
Definition relinked (d : N) (w : world) : world :=
  mkWorld (w_wrapper w) (w_argv w) (w_rustc w) (w_hash w) (w_host w) (w_meta w) (w_override w) (w_args w) (w_project w) (w_root w) (w_cfg w) (w_exe w) (w_set_times w)
    (w_exists w) (w_walk w) (w_cargo w) (w_utf8 w) (w_path w) (w_dir w) (w_read w) (w_object w) (w_archive w)
    (fun file => match w_executable w file with Ret s => Ret (mkElf (map (up d) (el_defined s)) (el_undefined s)) | Fail m => Fail m | Panic m => Panic m | Fuel => Fuel end)
    (fun file => match w_symtab w file with Ret s => Ret (map (up d) s) | Fail m => Fail m | Panic m => Panic m | Fuel => Fuel end)
    (fun file => option_map (up d) (w_text w file)) (w_defines_order w) (w_orders w) (w_fault w).
(** There is room in every executable for a Thumb target. *)
Record roomy (d : N) (w : world) : Prop := {
  ry_defined : forall file s a y, w_executable w file = Ret s -> In (a, y) (el_defined s) -> a + d < 2 ^ 32;
  ry_tags : forall file s a n, w_symtab w file = Ret s -> In (a, n) s -> tag_of (a, n) <> None -> a + d < 2 ^ 32;
  ry_text : forall file a text, w_text w file = Some (a, text) -> a + d + N.of_nat (length text) < 2 ^ 32
}.
