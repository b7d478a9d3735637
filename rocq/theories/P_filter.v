(** Properties C12-C14: the start point filter. *)
From Verif Require Import M_base M_stack M_graph M_analysis M_filter S_graph S_filter L_maxprops L_filter2 X_graph.

(** C12: with a start point the graph is exactly the part reachable from it. *)
Theorem C12_filter_keeps_exactly_the_reachable_part :
  forall demangle indices s i g,
    wf_graph g -> resolve_start demangle indices s = Some i -> i < node_count g ->
    exists g2 ids, filter_start demangle indices (Some s) g = Ret g2 /\ restricted g i g2 ids.
Proof. exact filter_restricts. Qed.
Print Assumptions C12_filter_keeps_exactly_the_reachable_part.

Definition ex_indices : list (str * nat) := [(lit "main", 0); (lit "a", 1); (lit "_R1b", 2)].
Definition ex_demangle (s : str) : str := if str_eqb s (lit "_R1b") then lit "b::h0123456789abcdef" else s.

Example C12_example :
  wf_graph ex /\ resolve_start ex_demangle ex_indices (lit "b") = Some 2 /\ 2 < node_count ex /\
  exists g2, filter_start ex_demangle ex_indices (Some (lit "b")) ex = Ret g2 /\ node_count g2 = 3 /\
    gedges g2 = [(0, 1); (0, 2); (2, 0)].
Proof.
  split; [exact ex_wf|]. split; [reflexivity|]. split; [unfold node_count; simpl; lia|].
  eexists. split; [reflexivity|]. split; reflexivity.
Qed.

(** C13: the functions that survive the filter keep their maximum. *)
Theorem C13_filter_keeps_maxima :
  forall demangle indices s i g g' cs,
    wf_graph g -> usages_u64 g ->
    resolve_start demangle indices s = Some i -> i < node_count g ->
    max_stack true g = Ret (g', cs) ->
    exists g2 ids g2' cs2,
      filter_start demangle indices (Some s) g = Ret g2 /\ restricted g i g2 ids /\
      max_stack true g2 = Ret (g2', cs2) /\
      forall k v m, nth_error ids k = Some v -> (reported g2' k m <-> reported g' v m).
Proof. exact filter_keeps. Qed.
Print Assumptions C13_filter_keeps_maxima.

Example C13_example :
  wf_graph ex /\ usages_u64 ex /\ resolve_start ex_demangle ex_indices (lit "b") = Some 2 /\
  2 < node_count ex /\ max_stack true ex = Ret ex_done.
Proof.
  split; [exact ex_wf|]. split; [exact (sum_u64 _ ex_sum)|]. split; [reflexivity|].
  split; [unfold node_count; simpl; lia | exact ex_run].
Qed.

(** C14: a start point that is a symbol name selects that symbol. *)
Theorem C14_symbol_name_selects_symbol :
  forall demangle indices start i,
    NoDup (map fst indices) -> In (start, i) indices -> resolve_start demangle indices start = Some i.
Proof. exact resolve_exact. Qed.
Print Assumptions C14_symbol_name_selects_symbol.

(** C14, partial: otherwise it selects node [i] iff exactly one symbol's demangled name is the start point
    followed by a hash - provided that no demangled name continues the start point with [::h] in another way
    (see the refutation below).  *)
Theorem C14_hashed_name_resolution_partial :
  forall demangle indices start,
    NoDup (map fst indices) -> ~ In start (map fst indices) ->
    (forall key i r, In (key, i) indices -> demangle key = start ++ lit "::h" ++ r ->
       hashed_form start (demangle key)) ->
    forall i,
    (resolve_start demangle indices start = Some i <->
     exists key, In (key, i) indices /\ hashed_form start (demangle key) /\
       (forall key' j, In (key', j) indices -> hashed_form start (demangle key') -> key' = key)).
Proof. exact resolve_hash. Qed.
Print Assumptions C14_hashed_name_resolution_partial.

(** What the code does without that proviso: any continuation that starts with [::h] counts. *)
Theorem C14_prefix_resolution :
  forall demangle indices start i,
    NoDup (map fst indices) -> ~ In start (map fst indices) ->
    (resolve_start demangle indices start = Some i <->
     exists key, In (key, i) indices /\
       (exists r, demangle key = start ++ lit "::h" ++ r) /\
       (forall key' j, In (key', j) indices -> (exists r, demangle key' = start ++ lit "::h" ++ r) ->
          key' = key)).
Proof. exact resolve_other. Qed.
Print Assumptions C14_prefix_resolution.

(** The full statement is false: start point [foo] selects [foo::helper]. *)
Theorem C14_selects_only_hashed_names_refuted :
  exists demangle indices start i key,
    resolve_start demangle indices start = Some i /\ In (key, i) indices /\
    ~ hashed_form start (demangle key) /\ hashed_form (lit "foo::helper") (demangle key) /\
    start = lit "foo".
Proof. exact prefix_not_hash. Qed.
Print Assumptions C14_selects_only_hashed_names_refuted.

(** An unresolved start point leaves the graph unfiltered. *)
Theorem C14_unresolved_start_leaves_graph :
  forall demangle indices s g,
    resolve_start demangle indices s = None -> filter_start demangle indices (Some s) g = Ret g.
Proof. exact filter_unresolved. Qed.
Print Assumptions C14_unresolved_start_leaves_graph.

Example C14_example :
  NoDup (map fst ex_indices) /\ In (lit "a", 1) ex_indices /\ ~ In (lit "b") (map fst ex_indices) /\
  (forall key i r, In (key, i) ex_indices -> ex_demangle key = lit "b" ++ lit "::h" ++ r ->
     hashed_form (lit "b") (ex_demangle key)) /\
  resolve_start ex_demangle ex_indices (lit "nope") = None.
Proof.
  split; [|split; [|split; [|split; [|reflexivity]]]].
  - repeat constructor; simpl; intuition discriminate.
  - right; left; reflexivity.
  - simpl; intuition discriminate.
  - intros key i r [H|[H|[H|[]]]] Hd; inversion H; subst; try discriminate.
    exists (lit "::h0123456789abcdef"). split; [reflexivity|]. exists (lit "0123456789abcdef"). repeat split; reflexivity.
Qed.
