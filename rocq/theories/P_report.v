(** Properties C66 and C67: the printed text against the program that was built. *)
From Coq Require Import Permutation Sorted.
From Verif Require Import M_base M_stack M_graph M_names M_thumb M_ty M_parse M_render M_build M_run M_wrapper M_driver.
From Verif Require Import S_names S_graph S_render S_build S_run S_driver X_build X_driver X_report L_report2.
Local Open Scope string_scope.
Local Open Scope list_scope.

(** C66, partial (names without backslash, as in C16): the file that is printed shows the call graph of the program: nodes, edges,
    and groups of recursive functions; and the maxima follow from the usages and the edges which it shows. *)
Theorem C66_printed_graph_is_the_call_graph_partial :
  forall demangle w t c, sane w -> main demangle w = (t, c) -> c = 0%Z -> a_format (w_args w) = Dot ->
  exists target file rlib ll p out, analyses w target file rlib ll p /\ one_artifact (w_args w) file /\ printed t = [out] /\
  ((forall g cycles nd, report demangle (w_orders w) (a_start (w_args w)) p = Ret (g, cycles) -> In nd (gnodes g) -> no_backslash (demangle (nname nd))) ->
   exists st nds es cs, read_dot out = Some st /\
     file_nodes st = map (fun x => (Some (N.of_nat (fst x)), Some (demangle (nname (snd x)), nmax (snd x), nlocal (snd x)), ndashed (snd x))) (combine (seq 0 (length nds)) nds) /\
     file_edges st = map (fun e => (Some (N.of_nat (fst e)), Some (N.of_nat (snd e)))) es /\
     map snd (file_clusters None st) = map (map (fun v => Some (N.of_nat v))) cs /\
     (exists ks void, pictures demangle p (a_start (w_args w)) ks void nds es) /\ figures nds es /\
     (measured p -> groups es cs /\ forall nd, In nd nds -> nmax nd <> None) /\
     (~ measured p -> cs = [] /\ forall nd, In nd nds -> nmax nd = None)).
Proof. exact printed_graph. Qed.
Print Assumptions C66_printed_graph_is_the_call_graph_partial.
Example C66_example : sane ex_w /\ (exists t, main idd ex_w = (t, 0%Z) /\ printed t = [ex_out]) /\ a_format (w_args ex_w) = Dot /\
  load ex_w (lit "x86_64-unknown-linux-gnu") (lit "my-app") (lit "t/cb.rlib") (lit "t/compiler_builtins-3f.ll") = Ret ex_p /\ measured ex_p /\
  (forall g cycles nd, report idd o_rev None ex_p = Ret (g, cycles) -> In nd (gnodes g) -> no_backslash (nname nd)).
Proof.
  split; [apply ex_sane|]. split; [destruct ex_run as [t [H1 [H2 _]]]; exists t; split; [exact H1 | exact H2]|]. split; [reflexivity|]. split; [exact ex_load|]. split; [exact ex_measured | exact ex_names].
Qed.

(** C67, partial (names without line breaks, as in C17): the list that is printed has a row for each function of the program (or of
    the part below the start point), the largest usage first, and on top the largest of the maxima. *)
Theorem C67_printed_list_shows_the_functions_partial :
  forall demangle w t c, sane w -> main demangle w = (t, c) -> c = 0%Z -> a_format (w_args w) = Top ->
  exists target file rlib ll p out, analyses w target file rlib ll p /\ one_artifact (w_args w) file /\ printed t = [out] /\
  ((forall g cycles nd, report demangle (w_orders w) (a_start (w_args w)) p = Ret (g, cycles) -> In nd (gnodes g) -> one_line (demangle (nname nd))) ->
   exists mx l nds es, read_top out = Some (mx, map (fun nd => (S_render.usage nd, demangle (nname nd))) l) /\
     Permutation nds l /\ StronglySorted (fun a b => (S_render.usage b <= S_render.usage a)%N) l /\
     (exists ks void, pictures demangle p (a_start (w_args w)) ks void nds es) /\ figures nds es /\
     (measured p -> forall nd, In nd nds -> nmax nd <> None) /\ (~ measured p -> forall nd, In nd nds -> nmax nd = None) /\
     match mx with
     | Some n => (exists nd, In nd nds /\ max_number nd = n) /\ forall nd, In nd nds -> (max_number nd <= n)%N
     | None => nds = []
     end).
Proof. exact printed_list. Qed.
Print Assumptions C67_printed_list_shows_the_functions_partial.
Example C67_example : sane top_w /\ (exists t, main idd top_w = (t, 0%Z) /\ printed t = [top_out]) /\ a_format (w_args top_w) = Top /\
  load top_w (lit "x86_64-unknown-linux-gnu") (lit "my-app") (lit "t/cb.rlib") (lit "t/compiler_builtins-3f.ll") = Ret ex_p /\ measured ex_p /\
  (forall g cycles nd, report idd o_rev None ex_p = Ret (g, cycles) -> In nd (gnodes g) -> one_line (nname nd)) /\
  read_top top_out = Some (Some 24%N, [(16%N, lit "main"); (8%N, lit "leaf"); (4%N, lit "memcpy")]).
Proof.
  split; [apply ex_sane|]. split; [exact top_run|]. split; [reflexivity|]. split; [exact ex_load|]. split; [exact ex_measured|]. split; [exact ex_lines | vm_compute; reflexivity].
Qed.
