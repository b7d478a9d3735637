(** C92: the names of the functions do not matter. *)
From Verif Require Import M_base M_stack M_graph M_names M_thumb M_ty M_parse M_render M_build M_run M_log S_names S_build S_log S_rename S_renlog X_build L_rename3 L_renlog X_rename X_renlog.

(** C92: if the functions of a program are renamed one-to-one, and the new names mean the same to the tool (mapping symbols, outlined functions,
    intrinsics of LLVM, names up to the hash), then the run ends in the same way; the graph has the same edges, the same numbers on its nodes and
    the same groups, and its nodes are called as before or by the new names. *)
Theorem C92_renamed_programs :
  forall demangle o p r start start', distinct (names_of p) r -> keeps demangle p r -> same_start demangle p r start start' ->
  renamed_report p r (report demangle o start p) (report demangle o start' (renamed r p)).
Proof. exact renamed_same. Qed.
Print Assumptions C92_renamed_programs.
Example C92_example : distinct (names_of p_twins) r_twins /\ keeps idd p_twins r_twins /\ same_start idd p_twins r_twins (Some (lit q_main)) (Some (lit "app::main::h0000000000000002")) /\
  exists g cs, report idd o_id (Some (lit q_main)) p_twins = Ret (g, cs) /\ map nname (gnodes g) = [lit "app::main"; lit "lib::run::h00000000000000b2"; lit "lib::run::h00000000000000b1"].
Proof. exact twins_example. Qed.
(** If only hashes change, and the functions that get new ones are the only ones of their names, the report and the printed text do not change. *)
Theorem C92_hashes_do_not_show :
  forall demangle o p r start start', wf_prog p -> distinct (names_of p) r -> keeps demangle p r -> same_start demangle p r start start' -> only_hashes demangle p r ->
  report demangle o start' (renamed r p) = report demangle o start p.
Proof. exact renamed_unseen. Qed.
Print Assumptions C92_hashes_do_not_show.
Theorem C92_same_output :
  forall demangle o p r start start', wf_prog p -> distinct (names_of p) r -> keeps demangle p r -> same_start demangle p r start start' -> only_hashes demangle p r ->
  forall f, output demangle o start' f (renamed r p) = output demangle o start f p.
Proof. exact renamed_output. Qed.
Print Assumptions C92_same_output.
Example C92_example_hashes : wf_prog p_hashes /\ distinct (names_of p_hashes) r_hashes /\ keeps idd p_hashes r_hashes /\ same_start idd p_hashes r_hashes (Some (lit "app::main")) (Some (lit "app::main")) /\
  only_hashes idd p_hashes r_hashes /\ renamed r_hashes p_hashes <> p_hashes /\ exists g cs, report idd o_id (Some (lit "app::main")) p_hashes = Ret (g, cs) /\ map nname (gnodes g) <> [] /\
  hd [] (map nname (gnodes g)) = lit "app::main" /\ length (gedges g) = 8.
Proof. exact hashes_example. Qed.
(** Functions with the same name up to the hash are shown with their hashes. *)
Theorem C92_twins_show_refuted :
  exists demangle o p r, wf_prog p /\ distinct (names_of p) r /\ keeps demangle p r /\ exists a b, output demangle o None Top p = Ret a /\ output demangle o None Top (renamed r p) = Ret b /\ a <> b.
Proof. eexists. eexists. eexists. eexists. exact twins_shown. Qed.
Print Assumptions C92_twins_show_refuted.
(** Not any name will do: a function with the name of an intrinsic is not followed, and the maximum of its callers changes. *)
Theorem C92_any_name_refuted :
  exists demangle o p r, wf_prog p /\ distinct (names_of p) r /\
  exists g cs g' cs', report demangle o None p = Ret (g, cs) /\ report demangle o None (renamed r p) = Ret (g', cs') /\
    (exists nd nd', nth_error (gnodes g) 0 = Some nd /\ nth_error (gnodes g') 0 = Some nd' /\ nname nd' = nname nd /\ nmax nd' <> nmax nd).
Proof. eexists. eexists. eexists. eexists. exact llvm_drops. Qed.
Print Assumptions C92_any_name_refuted.
(** The log of the renamed program has the same messages in the same order, with the new names; the functions that a start point could mean are
    listed in the order of their new names.  This includes runs that stop. *)
Theorem C92_renamed_log :
  forall demangle o p r start start', distinct (names_of p) r -> keeps demangle p r -> same_start demangle p r start start' ->
  Forall2 (renamed_message p r start start') (fst (report_log demangle o start p)) (fst (report_log demangle o start' (renamed r p))).
Proof. exact renamed_log. Qed.
Print Assumptions C92_renamed_log.
Example C92_example_log : distinct (names_of p_noisy) r_noisy /\ keeps idd p_noisy r_noisy /\ same_start idd p_noisy r_noisy (Some (lit "lib::run")) (Some (lit "lib::run")) /\
  fst (report_log idd o_id (Some (lit "lib::run")) p_noisy) =
    [no_usage (lit t_1); lowering_note (lit "llvm.ctlz.i32"); asm_note (lit "nop") (lit t_1);
     start_multiple (lit "lib::run") (debug_list [lit t_1; lit t_2]); start_missing] /\
  fst (report_log idd o_id (Some (lit "lib::run")) (renamed r_noisy p_noisy)) =
    [no_usage (lit "lib::run::h00000000000000c2"); lowering_note (lit "llvm.ctlz.i32"); asm_note (lit "nop") (lit "lib::run::h00000000000000c2");
     start_multiple (lit "lib::run") (debug_list [lit "lib::run::h00000000000000c1"; lit "lib::run::h00000000000000c2"]); start_missing].
Proof. exact noisy_example. Qed.
