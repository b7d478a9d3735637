(** Programs without some of their stack sizes. *)
From Verif Require Import M_base M_stack M_graph M_analysis M_names M_thumb S_thumb M_ty M_parse M_render M_build M_run S_names S_graph S_sig S_build S_run S_part S_below S_more S_fewer
  L_base L_names L_build1 L_build3 L_build4 L_build5 L_build6 L_build7 L_build8 L_run L_run2 L_analysis X_build X_finite X_part X_below L_more L_fewer X_more X_below2.
Local Open Scope string_scope.
Local Open Scope list_scope.

(** ** Call graphs: 0 calls 1 and 2, the usage of 2 is unknown in the first one. *)
Definition nd_of (l : M_stack.local) : node := mkNode (lit "f") l None false.
Definition g_less : graph node := mkG (map nd_of [LExact 8; LExact 16; LUnknown]) [(0, 1); (0, 2)].
Definition g_known : graph node := mkG (map nd_of [LExact 8; LExact 16; LExact 40]) [(0, 1); (0, 2)].
Lemma less_example : wf_graph g_less /\ usages_u64 g_known /\ less_known g_less g_known /\
  (exists g cs, max_stack true g_less = Ret (g, cs) /\ reported g 0 (MLower 24) /\ reported g 1 (MExact 16)) /\
  (exists g cs, max_stack true g_known = Ret (g, cs) /\ reported g 0 (MExact 48) /\ reported g 1 (MExact 16)) /\ below_2_64 g_known 0.
Proof.
  assert (Wf : wf_graph g_less) by (intros a b C; unfold S_graph.calls in C; cbn in C; each C; injection C as <- <-; cbn; lia).
  assert (Wf2 : wf_graph g_known) by (intros a b C; unfold S_graph.calls in C; cbn in C; each C; injection C as <- <-; cbn; lia).
  split; [exact Wf|]. split; [intros [|[|[|v]]] n K; unfold known in K; cbn in K; [injection K as <-; reflexivity..|destruct v; discriminate K]|].
  split; [constructor; [reflexivity..|]; intros [|[|[|v]]] n K; unfold known in *; cbn in *; [exact K | exact K | discriminate K | destruct v; discriminate K]|].
  split; [eexists; eexists; (split; [vm_compute; reflexivity|]); split; eexists; split; reflexivity|].
  split; [eexists; eexists; (split; [vm_compute; reflexivity|]); split; eexists; split; reflexivity|].
  apply sum_below; [exact Wf2 | vm_compute; reflexivity].
Qed.

(** ** A program without the size of `foo` *)
Definition no_foo : list (str * N) := [(lit "main", 8%N); (lit "other", 100%N)].
Lemma low_fits : fits (low [] 100).
Proof.
  exists (fun i => nth i [8; 16; 100]%N 0%N). split; [|vm_compute; reflexivity]. intros i k U.
  assert (L : llvm_size (low [] 100) i (Some k)) by (inversion U; try assumption; match goal with A : analysed _ _ _ _ _ |- _ => destruct A as [A _]; discriminate A end).
  destruct L as [n [C I]]. apply chosen_live, liveb_ok in C. cbn in I. each I; injection I as <- <-; destruct i as [|[|[|i]]]; try reflexivity; try discriminate C; unfold liveb in C; cbn in C; destruct i; discriminate C.
Qed.
Lemma fewer_example : wf_prog (low [] 100) /\ wf_prog (with_sizes (low [] 100) no_foo) /\ fewer_sizes (low [] 100) no_foo /\ sizes_u64 (low [] 100) /\ one_void (low [] 100) /\ fits (low [] 100) /\
  (exists g cs, report idd o_id None (low [] 100) = Ret (g, cs) /\ reported g 0 (MExact 24) /\ reported g 2 (MExact 100)) /\
  exists g cs, report idd o_rev None (with_sizes (low [] 100) no_foo) = Ret (g, cs) /\ reported g 0 (MLower 8) /\ reported g 2 (MExact 100).
Proof.
  destruct more_start_example as [W [_ [Sz [_ [Ov _]]]]]. split; [exact W|]. split; [apply wf_progb_sound; vm_compute; reflexivity|]. split.
  - constructor.
    + intros n k I. cbn in I. each I; injection I as <- <-; cbn; auto.
    + apply alone_known; [intros n k I; cbn in I; each I; injection I as <- <-; cbn; auto|]. intros n i ns _ [x [N ->]] I. destruct i as [|[|[|i]]]; cbn in N; [injection N as <-..|destruct i; discriminate N]; vm_compute in I |- *; each I; subst n; reflexivity.
    + intros n [[k S] _] O. cbn in S. each S; injection S as <- <-; apply outlined_spec in O; vm_compute in O; discriminate O.
  - split; [exact Sz|]. split; [exact Ov|]. split; [exact low_fits|].
    split; eexists; eexists; (split; [vm_compute; reflexivity|]); split; eexists; split; reflexivity.
Qed.

(** ** Why the conditions are there *)
(** A function made by the outliner: LLVM's size counts, unless it is missing. *)
Definition p_out : prog := mkProg Thumbv7m [] []
  [(lit "OUTLINED_FUNCTION_0", 4%N); (lit "foo", 0%N)] [(4096%N, mkSym [lit "OUTLINED_FUNCTION_0"] 4); (4100%N, mkSym [lit "foo"] 2)] []
  [(4096%N, TThumb)] (Some (4096%N, flat_map hw_bytes [0xB580; 0xBD80; 0x4770]%N)).
Lemma outlined_differ : wf_prog p_out /\ wf_prog (with_sizes p_out [(lit "foo", 0%N)]) /\ sizes_u64 p_out /\ incl [(lit "foo", 0%N)] (pg_sizes p_out) /\
  (exists g cs, report idd o_id None p_out = Ret (g, cs) /\ reported g 0 (MExact 4)) /\
  exists g cs, report idd o_id None (with_sizes p_out [(lit "foo", 0%N)]) = Ret (g, cs) /\ reported g 0 (MExact 8).
Proof.
  do 2 (split; [apply wf_progb_sound; vm_compute; reflexivity|]). split; [intros n k I; cbn in I; each I; injection I as <- <-; reflexivity|]. split; [intros x I; cbn in *; tauto|].
  split; eexists; eexists; (split; [vm_compute; reflexivity|]); eexists; split; reflexivity.
Qed.
(** Two names: the tool knows the function by the name that has a size. *)
Definition p_alias : prog := mkProg Thumbv7m [fdef "main" (fsig [] None) [BitcastCall (Some (lit "foo"))]] []
  [(lit "main", 0%N); (lit "bar", 0%N)] [(4096%N, mkSym [lit "main"] 2); (4098%N, mkSym [lit "foo"; lit "bar"] 2)] [lit "foo"]
  [(4096%N, TThumb)] (Some (4096%N, flat_map hw_bytes [0x4770; 0x4770]%N)).
Lemma alias_differ : wf_prog p_alias /\ wf_prog (with_sizes p_alias [(lit "main", 0%N)]) /\ sizes_u64 p_alias /\ incl [(lit "main", 0%N)] (pg_sizes p_alias) /\
  (exists g cs, report idd o_id None p_alias = Ret (g, cs) /\ reported g 0 (MLower 0)) /\
  exists g cs, report idd o_id None (with_sizes p_alias [(lit "main", 0%N)]) = Ret (g, cs) /\ reported g 0 (MExact 0).
Proof.
  do 2 (split; [apply wf_progb_sound; vm_compute; reflexivity|]). split; [intros n k I; cbn in I; each I; injection I as <- <-; reflexivity|]. split; [intros x I; cbn in *; tauto|].
  split; eexists; eexists; (split; [vm_compute; reflexivity|]); eexists; split; reflexivity.
Qed.
