(** What the printed text shows of the program. *)
From Coq Require Import Permutation Sorted.
From Verif Require Import M_base M_stack M_graph M_names M_thumb M_ty M_parse M_render M_build M_run M_wrapper M_driver.
From Verif Require Import S_names S_graph S_render S_build S_run S_driver L_base L_render L_run L_build5 L_driver1 L_driver2 L_driver3 L_driver4 L_driver5 L_report.

Theorem printed_graph demangle w t c : sane w -> main demangle w = (t, c) -> c = 0%Z -> a_format (w_args w) = Dot ->
  exists target file rlib ll p out, analyses w target file rlib ll p /\ one_artifact (w_args w) file /\ printed t = [out] /\
  ((forall g cycles nd, report demangle (w_orders w) (a_start (w_args w)) p = Ret (g, cycles) -> In nd (gnodes g) -> no_backslash (demangle (nname nd))) ->
   exists st nds es cs, read_dot out = Some st /\
     file_nodes st = map (fun x => (Some (N.of_nat (fst x)), Some (demangle (nname (snd x)), nmax (snd x), nlocal (snd x)), ndashed (snd x))) (combine (seq 0 (length nds)) nds) /\
     file_edges st = map (fun e => (Some (N.of_nat (fst e)), Some (N.of_nat (snd e)))) es /\
     map snd (file_clusters None st) = map (map (fun v => Some (N.of_nat v))) cs /\
     (exists ks void, pictures demangle p (a_start (w_args w)) ks void nds es) /\ figures nds es /\
     (measured p -> groups es cs /\ forall nd, In nd nds -> nmax nd <> None) /\
     (~ measured p -> cs = [] /\ forall nd, In nd nds -> nmax nd = None)).
Proof.
  intros S M N D. destruct (printed_of demangle w t c S M N) as [file [config [cfg [text [rlib [ll [p [echo [out [Ar [_ [_ [_ [_ [_ [Wf [A [O P]]]]]]]]]]]]]]]]]].
  exists (target_of w config), file, rlib, ll, p, out. split; [exact A|]. split; [exact Ar|]. split; [exact P|]. intros Nb.
  unfold output in O. apply bind_Ret in O. destruct O as [[g cycles] [O1 O2]]. rewrite D in O2. injection O2 as <-. pose proof (fun nd => Nb g cycles nd O1) as Q. unfold report in O1. apply bind_Ret in O1. destruct O1 as [b [B O1]].
  pose proof (sane_orders w S) as Fo. destruct (dot_read_back demangle g cycles Q) as [st [R1 [R2 [R3 R4]]]]. exists st, (gnodes g), (gedges g), cycles.
  split; [exact R1|]. split; [exact R2|]. split; [exact R3|]. split; [exact R4|]. split; [exact (report_graph demangle _ p b Wf Fo B _ _ _ O1)|].
  destruct (report_figures demangle _ p b Wf Fo B _ _ _ O1) as [F1 [F2 F3]]. split; [exact F1|]. split; [|exact F3]. intros Ms. split; [|exact (F2 Ms)].
  assert (Bi : b_info b = true) by (destruct (build_spec _ _ _ _ Wf Fo B) as [ks [void [_ [_ [_ [_ Ha]]]]]]; apply Ha; exact Ms).
  destruct (report_groups demangle _ p b Wf Fo B _ _ _ O1 Bi) as [G1 [G2 [G3 G4]]]. constructor; [split; [exact G1 | exact G2] | | exact G4].
  intros v. rewrite <- G3. reflexivity.
Qed.

Theorem printed_list demangle w t c : sane w -> main demangle w = (t, c) -> c = 0%Z -> a_format (w_args w) = Top ->
  exists target file rlib ll p out, analyses w target file rlib ll p /\ one_artifact (w_args w) file /\ printed t = [out] /\
  ((forall g cycles nd, report demangle (w_orders w) (a_start (w_args w)) p = Ret (g, cycles) -> In nd (gnodes g) -> one_line (demangle (nname nd))) ->
   exists mx l nds es, read_top out = Some (mx, map (fun nd => (S_render.usage nd, demangle (nname nd))) l) /\
     Permutation nds l /\ StronglySorted (fun a b => (S_render.usage b <= S_render.usage a)%N) l /\
     (exists ks void, pictures demangle p (a_start (w_args w)) ks void nds es) /\ figures nds es /\
     (measured p -> forall nd, In nd nds -> nmax nd <> None) /\ (~ measured p -> forall nd, In nd nds -> nmax nd = None) /\
     match mx with
     | Some n => (exists nd, In nd nds /\ max_number nd = n) /\ forall nd, In nd nds -> (max_number nd <= n)%N
     | None => nds = []
     end).
Proof.
  intros S M N D. destruct (printed_of demangle w t c S M N) as [file [config [cfg [text [rlib [ll [p [echo [out [Ar [_ [_ [_ [_ [_ [Wf [A [O P]]]]]]]]]]]]]]]]]].
  exists (target_of w config), file, rlib, ll, p, out. split; [exact A|]. split; [exact Ar|]. split; [exact P|]. intros Nb.
  unfold output in O. apply bind_Ret in O. destruct O as [[g cycles] [O1 O2]]. rewrite D in O2. injection O2 as <-. pose proof (fun nd => Nb g cycles nd O1) as Q. unfold report in O1. apply bind_Ret in O1. destruct O1 as [b [B O1]].
  pose proof (sane_orders w S) as Fo. destruct (top_rows demangle g Q) as [mx [l [R1 [R2 [R3 _]]]]]. destruct (top_max_line demangle g Q) as [mx' [rows [R4 R5]]]. rewrite R1 in R4. injection R4 as <- <-.
  exists mx, l, (gnodes g), (gedges g). split; [exact R1|]. split; [exact R2|]. split; [exact R3|]. split; [exact (report_graph demangle _ p b Wf Fo B _ _ _ O1)|].
  destruct (report_figures demangle _ p b Wf Fo B _ _ _ O1) as [F1 [F2 F3]]. split; [exact F1|]. split; [exact F2|]. split; [exact (fun H => proj2 (F3 H)) | exact R5].
Qed.
