(** Specification vocabulary for reports below a start point. *)
From Coq Require Import Permutation.
From Verif Require Import M_base M_wrapper M_driver.

(** [ids] lists for each node of the smaller graph the node of the larger one that it copies.  [groups_below ids cs cs']: the groups [cs'] of the smaller
    graph are those groups of [cs] that have a copy. *)
Record groups_below (ids : list nat) (cs cs' : list (list nat)) : Prop := {
  gb_copies : forall c', In c' cs' -> exists c, In c cs /\ Permutation (map (fun k => nth k ids 0) c') c;
  gb_all : forall c v, In c cs -> In v c -> In v ids -> exists c', In c' cs' /\ Permutation (map (fun k => nth k ids 0) c') c
}.
(** [started start w]: the same call of the tool with another start point, or with none. *)
Definition started (start : option str) (w : world) : world :=
  let a := w_args w in
  mkWorld (w_wrapper w) (w_argv w) (w_rustc w) (w_hash w) (w_host w) (w_meta w) (w_override w)
    (mkArgs (a_target a) (a_bin a) (a_example a) (a_features a) (a_all_features a) (a_verbose a) (a_format a) start) (w_project w) (w_root w) (w_cfg w) (w_exe w) (w_set_times w)
    (w_exists w) (w_walk w) (w_cargo w) (w_utf8 w) (w_path w) (w_dir w) (w_read w) (w_object w) (w_archive w) (w_executable w) (w_symtab w) (w_text w) (w_defines_order w) (w_orders w) (w_fault w).
