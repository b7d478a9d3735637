(** Specification vocabulary for the two output formats. *)
From Verif Require Import M_base M_stack M_names M_graph M_run M_wrapper M_driver S_render.

(** [in_format f w]: the same call of the tool with `--format` set to [f]. *)
Definition in_format (f : format) (w : world) : world :=
  let a := w_args w in
  mkWorld (w_wrapper w) (w_argv w) (w_rustc w) (w_hash w) (w_host w) (w_meta w) (w_override w)
    (mkArgs (a_target a) (a_bin a) (a_example a) (a_features a) (a_all_features a) (a_verbose a) f (a_start a)) (w_project w) (w_root w) (w_cfg w) (w_exe w) (w_set_times w)
    (w_exists w) (w_walk w) (w_cargo w) (w_utf8 w) (w_path w) (w_dir w) (w_read w) (w_object w) (w_archive w) (w_executable w) (w_symtab w) (w_text w) (w_defines_order w) (w_orders w) (w_fault w).
(** A node as read from a dot file: its number, its label (name, maximum, usage) and whether it is dashed. *)
Definition drawn : Type := (option N * option (str * option maxv * local) * bool)%type.
(** The row of the list for it: an unknown usage is listed as 0. *)
Definition row_of (d : drawn) : option (N * str) :=
  match d with
  | (_, Some (name, _, LExact n), _) => Some (n, name)
  | (_, Some (name, _, LUnknown), _) => Some (0%N, name)
  | (_, None, _) => None
  end.
(** The number of its maximum; without a maximum it counts as 0. *)
Definition drawn_max (d : drawn) : option N :=
  match d with
  | (_, Some (_, Some (MExact n), _), _) | (_, Some (_, Some (MLower n), _), _) => Some n
  | (_, Some (_, None, _), _) => Some 0%N
  | (_, None, _) => None
  end.
