(** Two reports that show the same. *)
From Coq Require Import Permutation.
From Verif Require Import M_base M_stack M_graph M_thumb M_ty M_parse M_render M_build M_run M_wrapper M_driver S_graph S_calls.

(** [same_nodes g1 g2 f f']: [f] and its inverse [f'] match the nodes of the two graphs; matched nodes are equal, with their names, usages and
    maxima, and there are as many edges between them. *)
Record same_nodes (g1 g2 : graph node) (f f' : nat -> nat) : Prop := {
  sn_there : forall v, v < node_count g1 -> f v < node_count g2 /\ f' (f v) = v;
  sn_back : forall v, v < node_count g2 -> f' v < node_count g1 /\ f (f' v) = v;
  sn_nodes : forall v, v < node_count g1 -> nth_error (gnodes g2) (f v) = nth_error (gnodes g1) v;
  sn_edges : forall u v, u < node_count g1 -> v < node_count g1 -> times (u, v) (gedges g1) = times (f u, f v) (gedges g2)
}.
(** [same_groups cs1 cs2 f]: [f] takes the groups of one list to those of the other. *)
Definition same_groups (cs1 cs2 : list (list nat)) (f : nat -> nat) : Prop :=
  exists cs, Permutation cs cs2 /\ Forall2 (fun c c' => Permutation (map f c) c') cs1 cs.

(** [reordered ds os w]: the hash maps of the tool are iterated in other orders; nothing else is different. *)
Definition reordered (ds : list (str * define) -> list (str * define)) (os : orders) (w : world) : world :=
  mkWorld (w_wrapper w) (w_argv w) (w_rustc w) (w_hash w) (w_host w) (w_meta w) (w_override w) (w_args w) (w_project w) (w_root w) (w_cfg w) (w_exe w) (w_set_times w)
    (w_exists w) (w_walk w) (w_cargo w) (w_utf8 w) (w_path w) (w_dir w) (w_read w) (w_object w) (w_archive w) (w_executable w) (w_symtab w) (w_text w) ds os (w_fault w).
(** Everything that a run does, except for what it writes to the log and to stdout. *)
Definition deeds (t : list event) : list event := filter (fun e => match e with ELog _ | EOut _ => false | _ => true end) t.
(** The text of a report. *)
Definition text_in (f : format) (demangle : str -> str) (g : graph node) (cs : list (list nat)) : str := match f with Dot => dot demangle g cs | Top => top demangle g end.
