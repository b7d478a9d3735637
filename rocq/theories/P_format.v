(** C97: the two output formats. *)
From Coq Require Import Permutation.
From Verif Require Import M_base M_stack M_graph M_names M_render M_build M_run M_wrapper M_driver S_render S_build S_run S_driver S_same S_format L_format X_build X_driver X_format.

(** C97: `--format` changes nothing but the text on stdout: the exit code, the commands, the files touched, the log, stderr and their order are the same, and
    the texts are of the same graph. *)
Theorem C97_only_the_text_changes :
  forall demangle w f1 f2, sane w -> (forall k, w_fault w k = None) -> forall t c, main demangle (in_format f1 w) = (t, c) ->
  exists t', main demangle (in_format f2 w) = (t', c) /\
  ((c <> 0%Z /\ t' = t) \/
   (c = 0%Z /\ exists pre g cs, printed pre = [] /\ t = pre ++ [EOut (text_in f1 demangle g cs)] /\ t' = pre ++ [EOut (text_in f2 demangle g cs)])).
Proof. exact same_but_text. Qed.
Print Assumptions C97_only_the_text_changes.
(** Reading both texts: the rows of the list are those of the nodes of the graph, and its first line is the largest maximum in the graph. *)
Theorem C97_formats_agree :
  forall demangle w t t' c', sane w -> (forall k, w_fault w k = None) -> main demangle (in_format Dot w) = (t, 0%Z) -> main demangle (in_format Top w) = (t', c') ->
  exists target file rlib ll p drawing list, analyses w target file rlib ll p /\ printed t = [drawing] /\ c' = 0%Z /\ printed t' = [list] /\
  ((forall g cycles nd, report demangle (w_orders w) (a_start (w_args w)) p = Ret (g, cycles) -> In nd (gnodes g) ->
      no_backslash (demangle (nname nd)) /\ one_line (demangle (nname nd))) ->
   exists st mx rows, read_dot drawing = Some st /\ read_top list = Some (mx, rows) /\ Permutation (map row_of (file_nodes st)) (map Some rows) /\
     match mx with
     | Some n => In (Some n) (map drawn_max (file_nodes st)) /\ forall k, In (Some k) (map drawn_max (file_nodes st)) -> (k <= n)%N
     | None => file_nodes st = []
     end).
Proof. exact formats_agree. Qed.
Print Assumptions C97_formats_agree.
Example C97_example : sane ex_w /\ (forall k, w_fault ex_w k = None) /\ exists t t', main idd (in_format Dot ex_w) = (t, 0%Z) /\ main idd (in_format Top ex_w) = (t', 0%Z) /\ printed t = [ex_out] /\
  exists st, read_dot ex_out = Some st /\ map row_of (file_nodes st) = [Some (16%N, lit "main"); Some (8%N, lit "leaf"); Some (4%N, lit "memcpy")] /\
    map drawn_max (file_nodes st) = [Some 24%N; Some 8%N; Some 4%N].
Proof. exact both_runs. Qed.
(** The list does not show whether its numbers are exact: two programs have the same list, but the maxima of one are known and those of the other are not. *)
Theorem C97_list_shows_exactness_refuted :
  exists p q, wf_prog p /\ wf_prog q /\ exists text g cs g' cs', output idd o_id None Top p = Ret text /\ output idd o_id None Top q = Ret text /\
  report idd o_id None p = Ret (g, cs) /\ report idd o_id None q = Ret (g', cs') /\
  map nmax (gnodes g) = [Some (MExact 16); Some (MExact 0)] /\ map nmax (gnodes g') = [Some (MLower 16); Some (MLower 0)].
Proof. eexists. eexists. exact same_list_other_graph. Qed.
Print Assumptions C97_list_shows_exactness_refuted.
