(** Properties C62-C65: the tool against the machine code of the program. *)
From Verif Require Import M_base M_stack M_graph M_names M_thumb M_ty M_parse M_render M_build M_run M_wrapper M_driver.
From Verif Require Import S_names S_graph S_render S_build S_run S_driver S_thumb S_machine X_build L_machine L_branch L_machine2 X_machine X_machine2.
Local Open Scope N_scope.
Local Open Scope list_scope.

(** C62, partial (for functions without conditional branches further than 256 KiB): every BL and every branch out of a function is an edge
    to the function at the address which the instruction goes to... *)
Theorem C62_branches_become_edges_partial :
  forall p lay, layout p lay ->
  forall demangle o b, wf_prog p -> fair o -> build demangle o p = Ret b ->
  forall i addr sym pos x imm, near p lay i -> nth_error (pg_defined p) i = Some (addr, sym) -> In (pos, x) (placed 0 (lay i)) ->
  call_imm x = Some imm \/ (branch_imm (is_v7 (pg_target p)) x = Some imm /\ inside (size (lay i)) (Z.of_N pos + 4 + imm) = false) ->
  exists j, at_address p j (dest addr pos imm) /\ In (i, j) (gedges (b_g b)).
Proof. exact branch_edges. Qed.
Print Assumptions C62_branches_become_edges_partial.
(** ... and the machine code is a reason for an edge only if it has such a branch. *)
Theorem C62_edges_come_from_branches_partial :
  forall p lay, layout p lay ->
  forall i j addr sym, near p lay i -> nth_error (pg_defined p) i = Some (addr, sym) -> addr + size (lay i) < 2 ^ 32 -> jumps p i j ->
  exists pos x imm, In (pos, x) (placed 0 (lay i)) /\ at_address p j (dest addr pos imm) /\
    (call_imm x = Some imm \/ (branch_imm (is_v7 (pg_target p)) x = Some imm /\ inside (size (lay i)) (Z.of_N pos + 4 + imm) = false)).
Proof. exact jumps_branch. Qed.
Print Assumptions C62_edges_come_from_branches_partial.
(** For any code, exactly: the edges go to where the branches are recorded to go, which is elsewhere for conditional branches further than 256 KiB only (C24). *)
Theorem C62_recorded_branches_become_edges :
  forall p lay, layout p lay ->
  forall demangle o b, wf_prog p -> fair o -> build demangle o p = Ret b ->
  forall i addr sym pos x imm, nth_error (pg_defined p) i = Some (addr, sym) -> In (pos, x) (placed 0 (lay i)) ->
  call_imm x = Some imm \/ (branch_recorded (is_v7 (pg_target p)) x = Some imm /\ inside (size (lay i)) (Z.of_N pos + 4 + imm) = false) ->
  exists j, at_address p j (dest addr pos imm) /\ In (i, j) (gedges (b_g b)).
Proof. exact recorded_edges. Qed.
Print Assumptions C62_recorded_branches_become_edges.
Theorem C62_edges_come_from_recorded_branches :
  forall p lay, layout p lay ->
  forall i j addr sym, nth_error (pg_defined p) i = Some (addr, sym) -> addr + size (lay i) < 2 ^ 32 -> jumps p i j ->
  exists pos x imm, In (pos, x) (placed 0 (lay i)) /\ at_address p j (dest addr pos imm) /\
    (call_imm x = Some imm \/ (branch_recorded (is_v7 (pg_target p)) x = Some imm /\ inside (size (lay i)) (Z.of_N pos + 4 + imm) = false)).
Proof. exact jumps_recorded. Qed.
Print Assumptions C62_edges_come_from_recorded_branches.
Example C62_example : layout m_p m_lay /\ (forall i, near m_p m_lay i) /\ wf_prog m_p /\ fair o_id /\
  (exists b g cs nd, build idd o_id m_p = Ret b /\ finish idd None b = Ret (g, cs) /\ nth_error (gnodes g) 0 = Some nd /\ nmax nd = Some (MExact 16) /\
     gedges (b_g b) = [(0, 1); (1, 2)]%nat) /\
  In (2, I32 0xf000 0xf801) (placed 0 (m_lay 0)) /\ call_imm (I32 0xf000 0xf801) = Some 2%Z /\ dest 4096 2 2 = 4104 /\
  In (10, I16 0xe7ff) (placed 0 (m_lay 1)) /\ branch_imm true (I16 0xe7ff) = Some (-2)%Z /\ inside (size (m_lay 1)) (10 + 4 + -2) = false /\ dest 4104 10 (-2) = 4116.
Proof.
  split; [exact m_layout|]. split; [exact m_near|]. split; [exact m_wf|]. split; [exact o_id_fair|]. split; [exact m_run|].
  repeat (split; [vm_compute; tauto|]). vm_compute. reflexivity.
Qed.

(** C63, partial (likewise): the usage shown for a function of which LLVM does not know the size is the sum of what its
    instructions are counted for, if no branch stays in the function; otherwise it is 0 or unknown.  They are counted for what
    they allocate, except for the instructions of [stack_quirk], and for no less except for those of [lost]. *)
Theorem C63_usage_added_up_partial :
  forall p lay, layout p lay ->
  forall demangle o b, wf_prog p -> fair o -> build demangle o p = Ret b ->
  forall i n addr sym, near p lay i -> chosen p i n -> nth_error (pg_defined p) i = Some (addr, sym) -> ~ sized p n ->
  exists l, nth_error (gnodes (b_g b)) i = Some (mkNode n l None false) /\
    (existsb (inside (size (lay i))) (targets (branch_imm (is_v7 (pg_target p))) (lay i)) = false ->
       l = LExact (total_counted (is_v7 (pg_target p)) (placed 0 (lay i)))) /\
    (existsb (inside (size (lay i))) (targets (branch_imm (is_v7 (pg_target p))) (lay i)) = true ->
       some_counted (is_v7 (pg_target p)) (placed 0 (lay i)) = false -> l = LExact 0) /\
    (existsb (inside (size (lay i))) (targets (branch_imm (is_v7 (pg_target p))) (lay i)) = true ->
       some_counted (is_v7 (pg_target p)) (placed 0 (lay i)) = true -> l = LUnknown) /\
    ((forall x, In (Ins x) (lay i) -> stack_quirk (is_v7 (pg_target p)) x = false) ->
       total_counted (is_v7 (pg_target p)) (placed 0 (lay i)) = total_drop (is_v7 (pg_target p)) (lay i) /\
       some_counted (is_v7 (pg_target p)) (placed 0 (lay i)) = some_drop (is_v7 (pg_target p)) (lay i)) /\
    ((forall x, In (Ins x) (lay i) -> lost (is_v7 (pg_target p)) x = false) ->
       total_drop (is_v7 (pg_target p)) (lay i) <= total_counted (is_v7 (pg_target p)) (placed 0 (lay i))).
Proof. exact own_usage. Qed.
Print Assumptions C63_usage_added_up_partial.
(** For any code, exactly, with the branches as they are recorded. *)
Theorem C63_usage_of_any_code :
  forall p lay, layout p lay ->
  forall demangle o b, wf_prog p -> fair o -> build demangle o p = Ret b ->
  forall i n addr sym, chosen p i n -> nth_error (pg_defined p) i = Some (addr, sym) -> ~ sized p n ->
  exists l, nth_error (gnodes (b_g b)) i = Some (mkNode n l None false) /\
    (existsb (inside (size (lay i))) (targets (branch_recorded (is_v7 (pg_target p))) (lay i)) = false ->
       l = LExact (total_counted (is_v7 (pg_target p)) (placed 0 (lay i)))) /\
    (existsb (inside (size (lay i))) (targets (branch_recorded (is_v7 (pg_target p))) (lay i)) = true ->
       some_counted (is_v7 (pg_target p)) (placed 0 (lay i)) = false -> l = LExact 0) /\
    (existsb (inside (size (lay i))) (targets (branch_recorded (is_v7 (pg_target p))) (lay i)) = true ->
       some_counted (is_v7 (pg_target p)) (placed 0 (lay i)) = true -> l = LUnknown) /\
    ((forall x, In (Ins x) (lay i) -> stack_quirk (is_v7 (pg_target p)) x = false) ->
       total_counted (is_v7 (pg_target p)) (placed 0 (lay i)) = total_drop (is_v7 (pg_target p)) (lay i) /\
       some_counted (is_v7 (pg_target p)) (placed 0 (lay i)) = some_drop (is_v7 (pg_target p)) (lay i)) /\
    ((forall x, In (Ins x) (lay i) -> lost (is_v7 (pg_target p)) x = false) ->
       total_drop (is_v7 (pg_target p)) (lay i) <= total_counted (is_v7 (pg_target p)) (placed 0 (lay i))).
Proof. exact own_usage_all. Qed.
Print Assumptions C63_usage_of_any_code.
(** This bounds what the function allocates itself, wherever it is. *)
Theorem C63_frames_fit_partial :
  forall p lay, layout p lay ->
  forall i pos u k, seen p lay i -> promised p lay i -> (i < length (pg_defined p))%nat -> usage p i (LExact k) -> frame_at p lay i pos u -> u <= k.
Proof. exact frames_fit. Qed.
Print Assumptions C63_frames_fit_partial.
Example C63_example : layout m_p m_lay /\ (forall i, seen m_p m_lay i) /\ (forall i, promised m_p m_lay i) /\ chosen m_p 2 (lit "bar") /\
  nth_error (pg_defined m_p) 2 = Some (4116, mkSym [lit "bar"] 2) /\ ~ sized m_p (lit "bar") /\
  existsb (inside (size (m_lay 2))) (targets (branch_imm true) (m_lay 2)) = false /\
  usage m_p 1 (LExact 8) /\ frame_at m_p m_lay 1 2 8.
Proof. split; [exact m_layout|]. split; [exact m_seen|]. split; [exact m_promised | exact m_bar_usage]. Qed.

(** C64, partial: while a function runs, the machine never uses more stack than the exact maximum which is reported for it, as long
    as the functions that are running are [trusted]: without the instructions that the decoder gets wrong, with LLVM's size right if it
    is relied upon, and without calls that the tool overlooks. *)
Theorem C64_exact_maximum_bounds_the_machine_partial :
  forall p lay, layout p lay ->
  forall demangle o b, wf_prog p -> fair o -> build demangle o p = Ret b ->
  forall start g cs, finish demangle start b = Ret (g, cs) ->
  exists ks, length ks = node_count g /\
    (forall k i n nd, nth_error ks k = Some (KReal i) -> nth_error (gnodes g) k = Some nd -> nmax nd = Some (MExact n) -> below_2_64 g k ->
       forall fs, executes p lay i fs -> (forall f, In f fs -> trusted p lay (fr_fn f)) -> in_use fs <= n) /\
    (no_start demangle p start -> forall i, (i < length (pg_defined p))%nat -> nth_error ks i = Some (KReal i)) /\
    (forall s k, start = Some s -> denotes demangle p s k -> nth_error ks 0 = Some k) /\
    (forall k key nd, nth_error ks k = Some key -> nth_error (gnodes g) k = Some nd -> shows demangle p key nd).
Proof. exact machine_bounded. Qed.
Print Assumptions C64_exact_maximum_bounds_the_machine_partial.
(** The promise about LLVM's sizes is needed: if a branch stays in the function, stack that inline assembly allocates is not
    counted, and yet the maximum is shown as exact. *)
Theorem C64_inline_assembly_refuted : exists p lay b g cs nd n fs, layout p lay /\ plain p lay /\ wf_prog p /\ covered p /\ fits p /\
  build idd o_id p = Ret b /\ finish idd None b = Ret (g, cs) /\ nth_error (gnodes g) 0 = Some nd /\ nmax nd = Some (MExact n) /\
  executes p lay 0 fs /\ n < in_use fs /\ has_asm p 1.
Proof. exact asm_exceeds. Qed.
Print Assumptions C64_inline_assembly_refuted.
Example C64_example : layout m_p m_lay /\ (forall i, trusted m_p m_lay i) /\ wf_prog m_p /\ fair o_id /\ fits m_p /\
  (exists b g cs nd, build idd o_id m_p = Ret b /\ finish idd None b = Ret (g, cs) /\ nth_error (gnodes g) 0 = Some nd /\ nmax nd = Some (MExact 16) /\
     gedges (b_g b) = [(0, 1); (1, 2)]%nat) /\
  executes m_p m_lay 0 [mkFrame 1 2 8; mkFrame 0 2 8] /\ in_use [mkFrame 1 2 8; mkFrame 0 2 8] = 16 /\
  executes m_p m_lay 0 [mkFrame 2 0 0; mkFrame 1 10 0; mkFrame 0 2 8].
Proof.
  split; [exact m_layout|]. split; [exact m_trusted|]. split; [exact m_wf|]. split; [exact o_id_fair|]. split; [exact m_fits|]. split; [exact m_run|].
  split; [exact (proj1 m_exec)|]. split; [reflexivity | exact (proj2 m_exec)].
Qed.

(** C65, partial (as C61 and C64): in the file that is printed, the maximum of a function, if it is exact, bounds the stack which
    the machine uses while the function runs. *)
Theorem C65_printed_maxima_bound_the_machine_partial :
  forall demangle w t c, sane w -> main demangle w = (t, c) -> c = 0%Z -> a_format (w_args w) = Dot ->
  exists target file rlib ll p out, analyses w target file rlib ll p /\ one_artifact (w_args w) file /\ printed t = [out] /\
  ((forall g cycles nd, report demangle (w_orders w) (a_start (w_args w)) p = Ret (g, cycles) -> In nd (gnodes g) -> no_backslash (demangle (nname nd))) ->
   forall lay, layout p lay ->
   exists st ks nds es, read_dot out = Some st /\ length ks = length nds /\
     file_nodes st = map (fun x => (Some (N.of_nat (fst x)), Some (demangle (nname (snd x)), nmax (snd x), nlocal (snd x)), ndashed (snd x))) (combine (seq 0 (length nds)) nds) /\
     file_edges st = map (fun e => (Some (N.of_nat (fst e)), Some (N.of_nat (snd e)))) es /\
     (forall k key nd, nth_error ks k = Some key -> nth_error nds k = Some nd -> shows demangle p key nd) /\
     (forall k i n nd, nth_error ks k = Some (KReal i) -> nth_error nds k = Some nd -> nmax nd = Some (MExact n) -> below_2_64 (mkG nds es) k ->
        forall fs, executes p lay i fs -> (forall f, In f fs -> trusted p lay (fr_fn f)) -> in_use fs <= n) /\
     (no_start demangle p (a_start (w_args w)) -> forall i, (i < length (pg_defined p))%nat -> nth_error ks i = Some (KReal i)) /\
     (forall s k, a_start (w_args w) = Some s -> denotes demangle p s k -> nth_error ks 0 = Some k) /\
     (fits p -> forall k, below_2_64 (mkG nds es) k)).
Proof. exact c65. Qed.
Print Assumptions C65_printed_maxima_bound_the_machine_partial.
Example C65_example : sane m_w /\ (exists t, main idd m_w = (t, 0%Z) /\ printed t = [m_out]) /\ a_format (w_args m_w) = Dot /\
  load m_w (lit "thumbv7m-none-eabi") (lit "my-app") (lit "t/cb.rlib") (lit "t/compiler_builtins-3f.ll") = Ret m_p /\
  (forall g cycles nd, report idd o_id None m_p = Ret (g, cycles) -> In nd (gnodes g) -> no_backslash (nname nd)) /\
  fits m_p /\ layout m_p m_lay /\ (forall i, trusted m_p m_lay i) /\
  executes m_p m_lay 0 [mkFrame 1 2 8; mkFrame 0 2 8].
Proof.
  split; [exact m_sane|]. split; [exact m_main_run|]. split; [reflexivity|]. split; [exact m_load|]. split; [exact m_names|]. split; [exact m_fits|].
  split; [exact m_layout|]. split; [exact m_trusted | exact (proj1 m_exec)].
Qed.
