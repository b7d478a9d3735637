(** Examples for the two output formats. *)
From Verif Require Import M_base M_stack M_graph M_names M_render M_ty M_parse M_build M_run M_wrapper M_driver S_render S_build S_driver S_same S_format X_build X_driver L_format.
Local Open Scope string_scope.
Local Open Scope list_scope.

Lemma both_runs : sane ex_w /\ (forall k, w_fault ex_w k = None) /\ exists t t', main idd (in_format Dot ex_w) = (t, 0%Z) /\ main idd (in_format Top ex_w) = (t', 0%Z) /\ printed t = [ex_out] /\
  exists st, read_dot ex_out = Some st /\ map row_of (file_nodes st) = [Some (16%N, lit "main"); Some (8%N, lit "leaf"); Some (4%N, lit "memcpy")] /\
    map drawn_max (file_nodes st) = [Some 24%N; Some 8%N; Some 4%N].
Proof.
  split; [apply ex_sane|]. split; [reflexivity|]. eexists. eexists. split; [vm_compute; reflexivity|]. split; [vm_compute; reflexivity|]. split; [vm_compute; reflexivity|].
  eexists. split; [vm_compute; reflexivity|]. split; vm_compute; reflexivity.
Qed.
(** A leaf without a frame and one of unknown usage. *)
Definition p_leaf (sizes : list (str * N)) : prog := mkProg OtherTarget
  [fdef "leaf" (fsig [] None) [Label; Other]; fdef "main" (fsig [] None) [Label; DirectCall (lit "leaf"); Other]] []
  ((lit "main", 16%N) :: sizes) [X_build.at_ 4096 ["main"]; X_build.at_ 4112 ["leaf"]] [] [] None.
Lemma same_list_other_graph : wf_prog (p_leaf [(lit "leaf", 0%N)]) /\ wf_prog (p_leaf []) /\ exists text g cs g' cs',
  output idd o_id None Top (p_leaf [(lit "leaf", 0%N)]) = Ret text /\ output idd o_id None Top (p_leaf []) = Ret text /\
  report idd o_id None (p_leaf [(lit "leaf", 0%N)]) = Ret (g, cs) /\ report idd o_id None (p_leaf []) = Ret (g', cs') /\
  map nmax (gnodes g) = [Some (MExact 16); Some (MExact 0)] /\ map nmax (gnodes g') = [Some (MLower 16); Some (MLower 0)].
Proof.
  split; [apply wf_progb_sound; vm_compute; reflexivity|]. split; [apply wf_progb_sound; vm_compute; reflexivity|]. do 5 eexists.
  split; [vm_compute; reflexivity|]. split; [vm_compute; reflexivity|]. split; [vm_compute; reflexivity|]. split; [vm_compute; reflexivity|]. split; vm_compute; reflexivity.
Qed.
