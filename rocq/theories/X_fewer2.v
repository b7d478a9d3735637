(** A run without some of the stack sizes. *)
From Verif Require Import M_base M_stack M_graph M_analysis M_names M_thumb M_ty M_parse M_render M_build M_run M_wrapper M_driver S_names S_graph S_render S_sig S_build S_run S_driver S_same S_part S_below S_more S_fewer
  L_base L_names L_build1 L_build8 L_run L_run2 L_below L_below2 X_build X_driver X_total X_same X_finite X_part X_below L_more L_fewer X_more X_below2 X_fewer.
Local Open Scope string_scope.
Local Open Scope list_scope.

Lemma fewer_start_example : wf_prog (low [] 100) /\ wf_prog (with_sizes (low [] 100) no_foo) /\ fewer_sizes (low [] 100) no_foo /\ sizes_u64 (low [] 100) /\ one_void (low [] 100) /\
  (exists g cs, report idd o_id (Some (lit "main")) (low [] 100) = Ret (g, cs) /\ length (gnodes g) = 3 /\ reported g 0 (MExact 24)) /\
  exists g cs, report idd o_rev None (with_sizes (low [] 100) no_foo) = Ret (g, cs) /\ reported g 0 (MLower 8).
Proof.
  destruct fewer_example as [W [W' [Fw [Sz [Ov _]]]]]. repeat (split; [assumption|]).
  split; eexists; eexists; (split; [vm_compute; reflexivity|]); [split; [reflexivity|]|]; eexists; split; reflexivity.
Qed.
(** The objects have the size of `main` only. *)
Definition less_w : world := mkWorld (w_wrapper ex_w) (w_argv ex_w) (w_rustc ex_w) (w_hash ex_w) (w_host ex_w) (w_meta ex_w) (w_override ex_w) (w_args ex_w) (w_project ex_w) (w_root ex_w) (w_cfg ex_w) (w_exe ex_w) (w_set_times ex_w) (w_exists ex_w) (w_walk ex_w) (w_cargo ex_w) (w_utf8 ex_w) (w_path ex_w) (w_dir ex_w) (w_read ex_w) (fun _ => Ret [(lit "main", 16%N)]) (w_archive ex_w) (w_executable ex_w) (w_symtab ex_w) (w_text ex_w) (w_defines_order ex_w) (w_orders ex_w) (w_fault ex_w).
Definition less_sizes : list (str * N) := [(lit "main", 16%N)].
Lemma less_load : load less_w (lit "x86_64-unknown-linux-gnu") (lit "my-app") (lit "t/cb.rlib") (lit "t/compiler_builtins-3f.ll") = Ret (with_sizes ex_p less_sizes).
Proof. vm_compute. reflexivity. Qed.
Lemma less_fewer : fewer_sizes ex_p less_sizes.
Proof.
  constructor.
  - intros n k I. cbn in I. each I; injection I as <- <-; cbn; auto.
  - apply alone_known; [intros n k I; cbn in I; each I; injection I as <- <-; cbn; auto|]. intros n i ns _ [x [N ->]] I. destruct i as [|[|[|i]]]; cbn in N; [injection N as <-..|destruct i; discriminate N]; vm_compute in I |- *; each I; subst n; reflexivity.
  - intros n [[k S] _] O. cbn in S. each S; injection S as <- <-; apply outlined_spec in O; vm_compute in O; discriminate O.
Qed.
Lemma less_runs : sane ex_w /\ sane less_w /\ (exists t t', main idd ex_w = (t, 0%Z) /\ main idd less_w = (t', 0%Z) /\ printed t <> printed t') /\
  a_format (w_args ex_w) = Dot /\ sizes_u64 ex_p /\ one_void ex_p /\ fits ex_p /\ fewer_sizes ex_p less_sizes.
Proof.
  split; [apply ex_sane|]. split; [destruct (ex_sane ex_args None good None ex_stderr (Some 0%Z)); constructor; assumption|].
  split; [eexists; eexists; split; [vm_compute; reflexivity|]; split; [vm_compute; reflexivity|]; vm_compute; discriminate|]. split; [reflexivity|].
  destruct ex_ordered as [_ [Ov Sz]]. split; [exact Sz|]. split; [exact Ov|]. split; [exact ex_fits | exact less_fewer].
Qed.
