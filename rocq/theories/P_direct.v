(** C107: machine code that calls by address only. *)
From Verif Require Import M_base M_stack M_graph M_names M_thumb M_ty M_parse M_render M_build M_run M_wrapper M_driver.
From Verif Require Import S_names S_graph S_render S_sig S_build S_run S_driver S_thumb S_machine S_direct X_build L_direct X_machine X_machine2 X_direct X_direct2.
Local Open Scope N_scope.
Local Open Scope list_scope.

(** C107, partial ([seen] and [promised] as in C64): no execution uses more stack than an exact maximum; what a function does in LLVM IR
    matters only if its machine code branches to addresses in registers. *)
Theorem C107_calls_by_address_are_bounded_partial :
  forall p lay, layout p lay ->
  forall demangle o b, wf_prog p -> fair o -> build demangle o p = Ret b ->
  forall start g cs, finish demangle start b = Ret (g, cs) ->
  exists ks, length ks = node_count g /\
    (forall k i n nd, nth_error ks k = Some (KReal i) -> nth_error (gnodes g) k = Some nd -> nmax nd = Some (MExact n) -> below_2_64 g k ->
       forall fs, executes p lay i fs -> (forall f, In f fs -> dependable p lay (fr_fn f)) -> in_use fs <= n) /\
    (no_start demangle p start -> forall i, (i < length (pg_defined p))%nat -> nth_error ks i = Some (KReal i)) /\
    (forall s k, start = Some s -> denotes demangle p s k -> nth_error ks 0 = Some k) /\
    (forall k key nd, nth_error ks k = Some key -> nth_error (gnodes g) k = Some nd -> shows demangle p key nd).
Proof. exact machine_direct. Qed.
Print Assumptions C107_calls_by_address_are_bounded_partial.
(** C107: the same for the file that is printed. *)
Theorem C107_printed_maxima_partial :
  forall demangle w t c, sane w -> main demangle w = (t, c) -> c = 0%Z -> a_format (w_args w) = Dot ->
  exists target file rlib ll p out, analyses w target file rlib ll p /\ one_artifact (w_args w) file /\ printed t = [out] /\
  ((forall g cycles nd, report demangle (w_orders w) (a_start (w_args w)) p = Ret (g, cycles) -> In nd (gnodes g) -> no_backslash (demangle (nname nd))) -> forall lay, layout p lay ->
   exists st ks nds es, read_dot out = Some st /\ length ks = length nds /\
     file_nodes st = map (fun x => (Some (N.of_nat (fst x)), Some (demangle (nname (snd x)), nmax (snd x), nlocal (snd x)), ndashed (snd x))) (combine (seq 0 (length nds)) nds) /\
     file_edges st = map (fun e => (Some (N.of_nat (fst e)), Some (N.of_nat (snd e)))) es /\
     (forall k key nd, nth_error ks k = Some key -> nth_error nds k = Some nd -> shows demangle p key nd) /\
     (forall k i n nd, nth_error ks k = Some (KReal i) -> nth_error nds k = Some nd -> nmax nd = Some (MExact n) -> below_2_64 (mkG nds es) k ->
        forall fs, executes p lay i fs -> (forall f, In f fs -> dependable p lay (fr_fn f)) -> in_use fs <= n) /\
     (no_start demangle p (a_start (w_args w)) -> forall i, (i < length (pg_defined p))%nat -> nth_error ks i = Some (KReal i)) /\
     (forall s k, a_start (w_args w) = Some s -> denotes demangle p s k -> nth_error ks 0 = Some k) /\
     (fits p -> forall k, below_2_64 (mkG nds es) k)).
Proof. exact direct_printed. Qed.
Print Assumptions C107_printed_maxima_partial.
Example C107_example : layout d_p m_lay /\ (forall i, dependable d_p m_lay i) /\ ~ covered_fn d_p 0 /\ wf_prog d_p /\ fair o_id /\
  (exists b g cs nd, build idd o_id d_p = Ret b /\ finish idd None b = Ret (g, cs) /\ nth_error (gnodes g) 0 = Some nd /\ nmax nd = Some (MExact 16)) /\
  executes d_p m_lay 0 [mkFrame 1 2 8; mkFrame 0 2 8] /\ in_use [mkFrame 1 2 8; mkFrame 0 2 8] = 16.
Proof.
  split; [exact d_layout|]. split; [exact d_dependable|]. split; [exact d_uncovered|]. split; [exact d_wf|]. split; [exact o_id_fair|]. split; [exact d_run|]. split; [exact d_exec | reflexivity].
Qed.
Example C107_printed_example : sane m_w /\ (exists t, main idd m_w = (t, 0%Z) /\ printed t = [m_out]) /\ a_format (w_args m_w) = Dot /\
  load m_w (lit "thumbv7m-none-eabi") (lit "my-app") (lit "t/cb.rlib") (lit "t/compiler_builtins-3f.ll") = Ret m_p /\
  (forall g cycles nd, report idd o_id None m_p = Ret (g, cycles) -> In nd (gnodes g) -> no_backslash (nname nd)) /\
  fits m_p /\ layout m_p m_lay /\ (forall i, ~ registers m_lay i /\ dependable m_p m_lay i) /\
  executes m_p m_lay 0 [mkFrame 1 2 8; mkFrame 0 2 8].
Proof. exact m_direct. Qed.
(** C107: of calls through registers this is not so. *)
Theorem C107_calls_through_registers_refuted : exists p lay g cs n fs, wf_prog p /\ fits p /\ layout p lay /\ (forall i, seen p lay i /\ promised p lay i) /\
  report idd o_id None p = Ret (g, cs) /\ reported g 0 (MExact n) /\ executes p lay 0 fs /\ n < in_use fs.
Proof. exact registers_exceed. Qed.
Print Assumptions C107_calls_through_registers_refuted.
