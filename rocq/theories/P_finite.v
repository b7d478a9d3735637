(** C96: every run comes to an end. *)
From Verif Require Import M_base M_stack M_graph M_filter M_names M_ty M_parse M_build M_run M_wrapper M_driver S_build S_run S_driver S_finite L_nofuel L_finite X_build X_driver X_finite.

(** C96: if cargo, rustc, the file system and the libraries come to an end, the tool does: no loop of it goes on forever, whatever the command line, the
    files and the program.  (A loop of the model that used up its steps would have the result [Fuel].) *)
Theorem C96_every_run_comes_to_an_end :
  forall demangle w, answers w -> (w_wrapper w = false -> sane w) -> snd (run demangle w) <> Fuel.
Proof. exact run_nu. Qed.
Print Assumptions C96_every_run_comes_to_an_end.
Example C96_example : answers ex_w /\ sane ex_w.
Proof. exact ex_answers. Qed.
(** The parser comes to an end on any bytes. *)
Theorem C96_parsing_comes_to_an_end : forall text, parse text <> OutOfFuel.
Proof. exact parse_nu. Qed.
Print Assumptions C96_parsing_comes_to_an_end.
(** The construction of the graph, the filter and the passes over the graph come to an end, with any recursion in the program. *)
Theorem C96_analysis_comes_to_an_end :
  forall demangle o start p, wf_prog p -> fair o -> report demangle o start p <> Fuel.
Proof. exact report_nu. Qed.
Print Assumptions C96_analysis_comes_to_an_end.
Example C96_example_circles : wf_prog p_circles /\ fair o_id.
Proof. exact circles_wf. Qed.
