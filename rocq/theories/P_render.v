(** Properties C15-C18: the output. *)
From Coq Require Import Permutation Sorted.
From Verif Require Import M_base M_stack M_graph M_analysis M_render S_graph S_render L_analysis L_render L_render2 X_graph.

(** C15, partial: for names without a backslash, a dot reader finds exactly one string as the label, and the label
    reads back as the name, the maximum and the local usage.  Missing: names with a backslash, for which it is false
    (below). *)
Theorem C15_label_reads_back_partial :
  forall demangle i nd rest,
    no_backslash (demangle (nname nd)) ->
    exists raw,
      lex (LPlain []) (dot_node demangle i nd ++ rest) =
        omap (app ([TId (show_nat i); TLBrack; TId (lit "label"); TEq; TStr raw] ++
                   (if ndashed nd then [TId (lit "style"); TEq; TId (lit "dashed")] else []) ++ [TRBrack]))
             (lex (LPlain []) rest) /\
      read_label raw = Some (demangle (nname nd), nmax nd, nlocal nd).
Proof. exact node_line_reads. Qed.
Print Assumptions C15_label_reads_back_partial.

Definition ex_node : node :=
  mkNode (lit "i8 (%" ++ [dquote] ++ lit "core::fmt::Formatter" ++ [dquote] ++ lit "*)") LUnknown (Some (MLower 24)) true.
Example C15_example :
  no_backslash (nname ex_node) /\
  read_dot (dot (fun s => s) (mkG [ex_node] []) []) <> None.
Proof. split; [apply lit_no_backslash; reflexivity | vm_compute; discriminate]. Qed.

(** A backslash before a quote ends the string too early: the file is not a dot file any more. *)
Theorem C15_backslash_breaks_label_refuted :
  exists nd, lex (LPlain []) (dot_node (fun s => s) 0 nd) = None.
Proof. exact backslash_breaks_label. Qed.
Print Assumptions C15_backslash_breaks_label_refuted.

(** A backslash at the end of a name changes how the rest of the label is read. *)
Theorem C15_backslash_changes_label_refuted :
  exists nd raw rest,
    lex (LPlain []) (dot_node (fun s => s) 0 nd) =
      Some ([TId (lit "0"); TLBrack; TId (lit "label"); TEq; TStr raw] ++ rest) /\
    read_label raw <> Some (nname nd, nmax nd, nlocal nd).
Proof. exact backslash_changes_label. Qed.
Print Assumptions C15_backslash_changes_label_refuted.

(** The restriction is exact: the label reads back if and only if the name has no backslash. *)
Theorem C15_label_reads_back_iff :
  forall demangle i nd rest, lex (LPlain []) rest <> None ->
    ((exists raw ts,
        lex (LPlain []) (dot_node demangle i nd ++ rest) = Some ([TId (show_nat i); TLBrack; TId (lit "label"); TEq; TStr raw] ++ ts) /\
        read_label raw = Some (demangle (nname nd), nmax nd, nlocal nd)) <->
     no_backslash (demangle (nname nd))).
Proof. exact label_iff. Qed.
Print Assumptions C15_label_reads_back_iff.
Example C15_iff_example : lex (LPlain []) (lit "    0 -> 1" ++ nl) <> None.
Proof. vm_compute. discriminate. Qed.

(** C16, partial (names without backslash): nodes, edges and clusters read back from the file. *)
Theorem C16_dot_reads_back_partial :
  forall demangle g cycles,
    (forall nd, In nd (gnodes g) -> no_backslash (demangle (nname nd))) ->
    exists st, read_dot (dot demangle g cycles) = Some st /\
      file_nodes st =
        map (fun p => (Some (N.of_nat (fst p)),
                       Some (demangle (nname (snd p)), nmax (snd p), nlocal (snd p)), ndashed (snd p)))
            (combine (seq 0 (node_count g)) (gnodes g)) /\
      file_edges st = map (fun e => (Some (N.of_nat (fst e)), Some (N.of_nat (snd e)))) (gedges g) /\
      map snd (file_clusters None st) = map (map (fun v => Some (N.of_nat v))) cycles.
Proof. exact dot_read_back. Qed.
Print Assumptions C16_dot_reads_back_partial.

(** Each cluster has a name of its own, by which Graphviz knows it as a cluster, and is drawn as one; all text is of one width. *)
Theorem C16_clusters_are_drawn_partial :
  forall demangle g cycles,
    (forall nd, In nd (gnodes g) -> no_backslash (demangle (nname nd))) ->
    exists st, read_dot (dot demangle g cycles) = Some st /\
      file_defaults st = [(lit "fontname", lit "monospace"); (lit "shape", lit "box")] /\
      length (file_styles None st) = length cycles /\ NoDup (map fst (file_styles None st)) /\
      forall k c, nth_error (file_styles None st) k = Some c -> exists d, as_num d = Some (N.of_nat k) /\
        c = (lit "cluster_" ++ d, [(lit "style", lit "dashed"); (lit "fontname", lit "monospace"); (lit "label", lit "SCC" ++ d)]).
Proof. exact dot_drawn. Qed.
Print Assumptions C16_clusters_are_drawn_partial.

(** Exactly: the nodes read back if and only if no name has a backslash. *)
Theorem C16_dot_reads_back_iff :
  forall demangle g cycles,
    (exists st, read_dot (dot demangle g cycles) = Some st /\
       file_nodes st =
         map (fun p => (Some (N.of_nat (fst p)),
                        Some (demangle (nname (snd p)), nmax (snd p), nlocal (snd p)), ndashed (snd p)))
             (combine (seq 0 (node_count g)) (gnodes g))) <->
    (forall nd, In nd (gnodes g) -> no_backslash (demangle (nname nd))).
Proof. exact file_iff. Qed.
Print Assumptions C16_dot_reads_back_iff.

Example C16_example :
  (forall nd, In nd (gnodes (fst ex_done)) -> no_backslash (nname nd)) /\
  snd ex_done <> [] /\ gedges (fst ex_done) <> [] /\ length (gnodes (fst ex_done)) = 7.
Proof.
  split; [|repeat split; discriminate].
  intros nd Hin. simpl in Hin. repeat (destruct Hin as [<-|Hin]; [apply lit_no_backslash; reflexivity|]). destruct Hin.
Qed.

(** C17: `top` lists every function once, largest local usage first, ties in graph order. *)
Theorem C17_top_lists_functions_by_usage :
  forall demangle g,
    (forall nd, In nd (gnodes g) -> one_line (demangle (nname nd))) ->
    exists mx l,
      read_top (top demangle g) = Some (mx, map (fun nd => (usage nd, demangle (nname nd))) l) /\
      Permutation (gnodes g) l /\
      StronglySorted (fun a b => (usage b <= usage a)%N) l /\
      forall k, filter (fun nd => (usage nd =? k)%N) l = filter (fun nd => (usage nd =? k)%N) (gnodes g).
Proof. exact top_rows. Qed.
Print Assumptions C17_top_lists_functions_by_usage.

(** C18: the MAX line. *)
Theorem C18_max_line_is_the_largest_number :
  forall demangle g,
    (forall nd, In nd (gnodes g) -> one_line (demangle (nname nd))) ->
    exists mx rows, read_top (top demangle g) = Some (mx, rows) /\
      match mx with
      | Some n => (exists nd, In nd (gnodes g) /\ max_number nd = n) /\
                  forall nd, In nd (gnodes g) -> (max_number nd <= n)%N
      | None => gnodes g = []
      end.
Proof. exact top_max_line. Qed.
Print Assumptions C18_max_line_is_the_largest_number.

Theorem C18_max_line_bounds_every_chain :
  forall demangle g g' cs w n rows,
    wf_graph g -> (forall v, v < node_count g -> below_2_64 g v) -> max_stack true g = Ret (g', cs) ->
    (forall nd, In nd (gnodes g') -> one_line (demangle (nname nd))) ->
    read_top (top demangle g') = Some (Some n, rows) ->
    (forall v m, reported g' v m -> exact m) -> true_usage g w ->
    forall v p, chain g v p -> (total w p <= n)%N.
Proof. exact top_max_bounds. Qed.
Print Assumptions C18_max_line_bounds_every_chain.

Example C17_C18_example :
  (forall nd, In nd (gnodes (fst ex_done)) -> one_line (nname nd)) /\
  exists rows, read_top (top (fun s => s) (fst ex_done)) = Some (Some 56%N, rows) /\ length rows = 7.
Proof.
  split; [|eexists; split; reflexivity].
  intros nd Hin. simpl in Hin.
  repeat (destruct Hin as [<-|Hin]; [intros Hc; simpl in Hc; repeat (destruct Hc as [E|Hc]; [discriminate|]); destruct Hc|]). destruct Hin.
Qed.

Definition ex_flat : graph node := mkG [new_node (lit "f") (Some 8%N) false; new_node (lit "g") (Some 4%N) false] [(0, 1)].
Example C18_example2 :
  exists g' rows, wf_graph ex_flat /\ (forall v, v < node_count ex_flat -> below_2_64 ex_flat v) /\ max_stack true ex_flat = Ret (g', []) /\
    read_top (top (fun s => s) g') = Some (Some 12%N, rows) /\ (forall v m, reported g' v m -> exact m).
Proof.
  assert (W : wf_graph ex_flat) by (intros a b [E|[]]; inversion E; unfold node_count; simpl; lia).
  eexists. eexists. split; [exact W|].
  split; [intros v _; apply (sum_below ex_flat v W); reflexivity|]. split; [reflexivity|]. split; [reflexivity|].
  intros [|[|[|v]]] m [nd [H1 H2]]; simpl in H1; inversion H1; subst; simpl in H2; inversion H2; exact I.
Qed.

(** The MAX line does not tell an exact maximum from a lower bound. *)
Theorem C18_max_line_marks_lower_bounds_refuted :
  exists g1 g2, top (fun s => s) g1 = top (fun s => s) g2 /\
    (exists m, reported g1 0 m /\ exact m) /\ (exists m, reported g2 0 m /\ ~ exact m).
Proof. exact top_drops_marker. Qed.
Print Assumptions C18_max_line_marks_lower_bounds_refuted.
