(** C106: silent runs, to the file that is printed and to the machine code. *)
From Verif Require Import M_base M_stack M_graph M_names M_thumb M_ty M_parse M_render M_build M_run M_log M_wrapper M_driver.
From Verif Require Import S_names S_graph S_render S_sig S_build S_run S_log S_driver S_thumb S_machine S_silent S_silent2 L_driver1 L_driver2 L_driver5 L_silent2 X_build X_driver X_machine X_machine2 X_silent2 X_silent3.

(** C106, partial (names without backslash as in C16): after a run that logs nothing, the exact maxima in the file that is printed bound the executions by functions that avoid the five ways. *)
Theorem C106_printed_silent_maxima_bound_executions_partial :
  forall demangle w t c, sane w -> main demangle w = (t, c) -> c = 0%Z -> a_format (w_args w) = Dot -> messages t = [] ->
  exists target file rlib ll p out, analyses w target file rlib ll p /\ one_artifact (w_args w) file /\ printed t = [out] /\
  ((forall g cycles nd, report demangle (w_orders w) (a_start (w_args w)) p = Ret (g, cycles) -> In nd (gnodes g) -> no_backslash (demangle (nname nd))) ->
   exists st ks nds es, read_dot out = Some st /\ length ks = length nds /\
     file_nodes st = map (fun x => (Some (N.of_nat (fst x)), Some (demangle (nname (snd x)), nmax (snd x), nlocal (snd x)), ndashed (snd x))) (combine (seq 0 (length nds)) nds) /\
     file_edges st = map (fun e => (Some (N.of_nat (fst e)), Some (N.of_nat (snd e)))) es /\
     (forall k key nd, nth_error ks k = Some key -> nth_error nds k = Some nd -> shows demangle p key nd) /\
     (forall k i n nd, nth_error ks k = Some (KReal i) -> nth_error nds k = Some nd -> nmax nd = Some (MExact n) -> below_2_64 (mkG nds es) k ->
        forall l, runs p i l -> (forall x c, In x l -> avoids p x c) -> exists d, depth p l d /\ (d <= n)%N) /\
     (no_start demangle p (a_start (w_args w)) -> forall i, i < length (pg_defined p) -> nth_error ks i = Some (KReal i)) /\
     (forall s k, a_start (w_args w) = Some s -> denotes demangle p s k -> nth_error ks 0 = Some k) /\
     (fits p -> forall k, below_2_64 (mkG nds es) k)).
Proof. exact printed_silent. Qed.
Print Assumptions C106_printed_silent_maxima_bound_executions_partial.
Example C106_printed_example : sane ex_w /\ (exists t, main idd ex_w = (t, 0%Z) /\ printed t = [ex_out] /\ messages t = []) /\ a_format (w_args ex_w) = Dot /\
  load ex_w (lit "x86_64-unknown-linux-gnu") (lit "my-app") (lit "t/cb.rlib") (lit "t/compiler_builtins-3f.ll") = Ret ex_p /\
  (forall g cycles nd, report idd o_rev None ex_p = Ret (g, cycles) -> In nd (gnodes g) -> no_backslash (nname nd)) /\
  (forall i c, avoids ex_p i c) /\ fits ex_p /\ runs ex_p 0 [0; 1] /\ depth ex_p [0; 1] 24.
Proof. exact ex_silent_run. Qed.
(** C106, partial (code of the modelled instructions, [steady]): with machine code three of the five ways are left, for functions that branch to registers, and the exact maxima of a silent run bound the stack that is in use at any time. *)
Theorem C106_silent_maximum_bounds_machine_partial :
  forall p lay, layout p lay -> forall demangle o start g cs, wf_prog p -> fair o -> report_log demangle o start p = ([], Ret (g, cs)) ->
  exists ks, length ks = node_count g /\
    (forall k i n nd, nth_error ks k = Some (KReal i) -> nth_error (gnodes g) k = Some nd -> nmax nd = Some (MExact n) -> below_2_64 g k ->
       forall fs, executes p lay i fs -> (forall f, In f fs -> steady p lay (fr_fn f)) -> (in_use fs <= n)%N) /\
    (no_start demangle p start -> forall i, i < length (pg_defined p) -> nth_error ks i = Some (KReal i)) /\
    (forall s k, start = Some s -> denotes demangle p s k -> nth_error ks 0 = Some k) /\
    (forall k key nd, nth_error ks k = Some key -> nth_error (gnodes g) k = Some nd -> shows demangle p key nd).
Proof. exact machine_silent. Qed.
Print Assumptions C106_silent_maximum_bounds_machine_partial.
(** C106: the same for the file that is printed. *)
Theorem C106_printed_silent_maxima_bound_machine_partial :
  forall demangle w t c, sane w -> main demangle w = (t, c) -> c = 0%Z -> a_format (w_args w) = Dot -> messages t = [] ->
  exists target file rlib ll p out, analyses w target file rlib ll p /\ one_artifact (w_args w) file /\ printed t = [out] /\
  ((forall g cycles nd, report demangle (w_orders w) (a_start (w_args w)) p = Ret (g, cycles) -> In nd (gnodes g) -> no_backslash (demangle (nname nd))) -> forall lay, layout p lay ->
   exists st ks nds es, read_dot out = Some st /\ length ks = length nds /\
     file_nodes st = map (fun x => (Some (N.of_nat (fst x)), Some (demangle (nname (snd x)), nmax (snd x), nlocal (snd x)), ndashed (snd x))) (combine (seq 0 (length nds)) nds) /\
     file_edges st = map (fun e => (Some (N.of_nat (fst e)), Some (N.of_nat (snd e)))) es /\
     (forall k key nd, nth_error ks k = Some key -> nth_error nds k = Some nd -> shows demangle p key nd) /\
     (forall k i n nd, nth_error ks k = Some (KReal i) -> nth_error nds k = Some nd -> nmax nd = Some (MExact n) -> below_2_64 (mkG nds es) k ->
        forall fs, executes p lay i fs -> (forall f, In f fs -> steady p lay (fr_fn f)) -> (in_use fs <= n)%N) /\
     (no_start demangle p (a_start (w_args w)) -> forall i, i < length (pg_defined p) -> nth_error ks i = Some (KReal i)) /\
     (forall s k, a_start (w_args w) = Some s -> denotes demangle p s k -> nth_error ks 0 = Some k) /\
     (fits p -> forall k, below_2_64 (mkG nds es) k)).
Proof. exact printed_machine. Qed.
Print Assumptions C106_printed_silent_maxima_bound_machine_partial.
Example C106_machine_example : sane m_w /\ (exists t, main idd m_w = (t, 0%Z) /\ printed t = [m_out] /\ messages t = []) /\ a_format (w_args m_w) = Dot /\
  load m_w (lit "thumbv7m-none-eabi") (lit "my-app") (lit "t/cb.rlib") (lit "t/compiler_builtins-3f.ll") = Ret m_p /\
  (forall g cycles nd, report idd o_id None m_p = Ret (g, cycles) -> In nd (gnodes g) -> no_backslash (nname nd)) /\
  fits m_p /\ layout m_p m_lay /\ wf_prog m_p /\ (exists g cs, report_log idd o_id None m_p = ([], Ret (g, cs))) /\ (forall i, steady m_p m_lay i) /\
  executes m_p m_lay 0 [mkFrame 1 2 8; mkFrame 0 2 8].
Proof. exact m_silent_run. Qed.
(** C106: each of the three can make an exact maximum of a silent run less than the machine uses, when the call is through a register. *)
Theorem C106_each_way_in_machine_code_refuted : forall c, In c [OfMemcmp; OfFormatting; OfSecondType] -> exists p lay, slips idd o_id p lay c.
Proof. exact each_slips. Qed.
Print Assumptions C106_each_way_in_machine_code_refuted.
