(** Examples for the log. *)
From Coq Require Import Sorted.
From Verif Require Import M_base M_stack M_graph M_analysis M_filter M_names M_thumb M_ty M_parse M_build M_run M_log M_wrapper M_driver S_names S_graph S_thumb S_build S_run S_log S_driver L_base L_names L_build1 L_build8 L_build9 L_run2 L_log8 X_build X_driver.
Local Open Scope string_scope.
Local Open Scope list_scope.

(** A program with something to tell: `blob` comes from a library, `main` uses inline assembly twice and two intrinsics. *)
Definition l_p : prog := mkProg OtherTarget
  [fdef "main" (fsig [] None) [Asm (lit "nop"); DirectCall (lit "llvm.bswap.i32"); Asm (lit "wfi"); DirectCall (lit "llvm.bswap.i32"); DirectCall (lit "llvm.dbg.value"); DirectCall (lit "init"); IndirectCall bin];
   fdef "init" bin [DirectCall (lit "llvm.umax.i8"); BitcastCall (Some (lit "outside")); BitcastCall (Some (lit "outside"))]] []
  [(lit "main", 8%N)] [at_ 4096 ["main"]; at_ 4112 ["init"]; at_ 4128 ["blob"]] [lit "outside"] [] None.
Lemma l_wf : wf_prog l_p.
Proof. apply wf_progb_sound. vm_compute. reflexivity. Qed.
Definition l_ms : list message :=
  [no_usage (lit "init"); no_usage (lit "blob"); no_type (lit "blob"); asm_note (lit "nop") (lit "main"); lowering_note (lit "llvm.bswap.i32"); lowering_note (lit "llvm.umax.i8");
   no_information (lit "outside"); untyped_note; start_missing].
Lemma l_log : exists r, report_log idd o_id (Some (lit "start")) l_p = (l_ms, Ret r).
Proof. eexists. vm_compute. reflexivity. Qed.
Lemma l_usage : exists i, chosen l_p i (lit "init") /\ usage l_p i LUnknown.
Proof. exists 1. split; [apply chosen_find; vm_compute; reflexivity|]. apply us_none; [left; reflexivity|]. exists (lit "init"). split; [apply chosen_find; vm_compute; reflexivity|]. intros [k [H|[]]]. discriminate H. Qed.

(** LLVM's stack size of an outlined function, and of a function with inline assembly, is replaced. *)
Definition o_p : prog := mkProg Thumbv7m [fdef "main" (fsig [] None) [Asm (lit "push {r4}")]] []
  [(lit "OUTLINED_FUNCTION_0", 0%N); (lit "main", 8%N)] [(4096%N, mkSym [lit "OUTLINED_FUNCTION_0"] 4); (4100%N, mkSym [lit "main"] 6)] []
  [(4096%N, TThumb)] (Some (4096%N, flat_map hw_bytes [0xB580; 0xBD80; 0xB580; 0xB410; 0xBD80]%N)).
Lemma o_wf : wf_prog o_p.
Proof. apply wf_progb_sound. vm_compute. reflexivity. Qed.
Lemma o_log : exists r, report_log idd o_id None o_p = ([asm_note (lit "push {r4}") (lit "main");
  override_note (lit "OUTLINED_FUNCTION_0") 0 8 (lit "function was produced by LLVM's function outlining pass"); override_note (lit "main") 8 12 (lit "function uses inline assembly")], Ret r).
Proof. eexists. vm_compute. reflexivity. Qed.

(** A silent run. *)
Lemma p3_log : exists r, report_log idd o_id None p3 = ([], Ret r).
Proof. eexists. vm_compute. reflexivity. Qed.
Lemma p1_log : exists g cs, report_log idd o_id None p1 = ([], Ret (g, cs)) /\ exists nd, nth_error (gnodes g) 5 = Some nd /\ nname nd = lit "extern_fn" /\ nlocal nd = LUnknown /\ nmax nd = Some (MLower 0).
Proof. eexists. eexists. split; [vm_compute; reflexivity|]. eexists. split; [reflexivity|]. split; [reflexivity|]. split; reflexivity. Qed.

(** A run with a start point that does not exist. *)
Definition start_args : args := mkArgs None (Some (lit "my-app")) None None false false Dot (Some (lit "start")).
Definition start_w : world := ex_world start_args None good None ex_stderr (Some 0%Z).
Lemma start_run : exists t, main idd start_w = (t, 0%Z) /\ printed t = [ex_out] /\ messages t = [start_missing].
Proof. eexists. split; [vm_compute; reflexivity|]. split; vm_compute; reflexivity. Qed.
Lemma outside_silent : exists p g cs nd, wf_prog p /\ report_log idd o_id None p = ([], Ret (g, cs)) /\ In nd (gnodes g) /\ nlocal nd = LUnknown /\ nmax nd = Some (MLower 0).
Proof. destruct p1_log as [g [cs [H [nd [K1 [_ [K2 K3]]]]]]]. exists p1, g, cs, nd. split; [exact p1_wf|]. split; [exact H|]. split; [exact (nth_error_In _ _ K1)|]. split; assumption. Qed.
(** A function without definition that calls through a register: `push {r7, lr}; blx r0; pop {r7, pc}`. *)
Definition b_p : prog := mkProg Thumbv7m [] [] [] [(4096%N, mkSym [lit "go"] 6)] [] [(4096%N, TThumb)] (Some (4096%N, flat_map hw_bytes [0xB580; 0x4780; 0xBD80]%N)).
Lemma b_wf : wf_prog b_p.
Proof. apply wf_progb_sound. vm_compute. reflexivity. Qed.
Lemma b_log : exists r, report_log idd o_id None b_p = ([no_type (lit "go"); blind_note (lit "go"); untyped_note; no_figures], Ret r).
Proof. eexists. vm_compute. reflexivity. Qed.
(** Two functions of the same name. *)
Definition h_p : prog := mkProg OtherTarget [fdef "run::h1" bin []; fdef "run::h0" bin []; fdef "go::h2" bin []] []
  [(lit "run::h0", 8%N); (lit "run::h1", 8%N); (lit "go::h2", 8%N)] [at_ 4096 ["run::h1"]; at_ 4112 ["run::h0"]; at_ 4128 ["go::h2"]] [] [] None.
Lemma h_wf : wf_prog h_p.
Proof. apply wf_progb_sound. vm_compute. reflexivity. Qed.
Definition run_hits : str := lit "[""run::h0"", ""run::h1""]".
Lemma h_log : (exists r, report_log idd o_id (Some (lit "run")) h_p = ([start_multiple (lit "run") run_hits; start_missing], Ret r)) /\
  exists r, report_log idd o_id (Some (lit "go")) h_p = ([], Ret r).
Proof. split; eexists; vm_compute; reflexivity. Qed.
(** The silent run of [p3]. *)
Lemma p3_silent : exists g cs, report_log idd o_id None p3 = ([], Ret (g, cs)) /\ reported g 0 (MExact 32).
Proof. eexists. eexists. split; [vm_compute; reflexivity|]. eexists. split; reflexivity. Qed.
Lemma p3_called : forall i f, body p3 i (DirectCall f) -> ~ intrinsic f -> exists j, live p3 f j.
Proof.
  intros i f B _. apply body_in in B. destruct B as [m [d [K1 K2]]]. cbn in K1. each K1; injection K1 as <- <-; cbn in K2; each K2; try discriminate K2; injection K2 as <-; [exists 1 | exists 3]; live_tac.
Qed.

(** Programs that are not understood: a symbol with no name of its own after one without type information; a call of a function that
    does not exist after inline assembly; machine code that contradicts LLVM after a usage that was corrected; a branch to nowhere. *)
Definition s_name : prog := mkProg OtherTarget [] [] [] [at_ 4096 ["blob"]; at_ 4112 ["$a"]; at_ 4128 ["late"]] [] [] None.
Definition s_call : prog := mkProg OtherTarget
  [fdef "main" (fsig [] None) [Asm (lit "nop"); DirectCall (lit "nowhere"); BitcastCall (Some (lit "outside"))]; fdef "init" bin [Asm (lit "wfi")]] []
  [(lit "main", 8%N)] [at_ 4096 ["main"]; at_ 4112 ["init"]] [lit "outside"] [] None.
Definition s_code (size : N) (code : list N) : prog := mkProg Thumbv7m [fdef "main" (fsig [] None) [Asm (lit "push {r4}")]; fdef "work" (fsig [] None) []; fdef "late" (fsig [] None) []] []
  [(lit "main", 8%N); (lit "work", size)] [(4096%N, mkSym [lit "main"] 6); (4102%N, mkSym [lit "work"] 4); (4106%N, mkSym [lit "late"] 4)] []
  [(4096%N, TThumb)] (Some (4096%N, flat_map hw_bytes ([0xB580; 0xB410; 0xBD80] ++ code ++ [0xB580; 0xBD80])%N)).
Definition s_sizes : prog := s_code 4 [0xB580; 0xBD80]%N.
Definition s_branch : prog := s_code 0 [0xBF00; 0xE555]%N.
Definition stops_with (p : prog) (ms : list message) : Prop := wf_prog p /\ ~ understood p /\ exists msg, report_log idd o_id None p = (ms, Panic msg).
Ltac stop_tac := let W := fresh in
  match goal with |- stops_with ?p _ => assert (W : wf_prog p) by (apply wf_progb_sound; vm_compute; reflexivity); split; [exact W|]; split;
    [intros U; apply (build_iff idd o_id p W) in U; destruct U as [b E]; vm_compute in E; discriminate E | eexists; vm_compute; reflexivity] end.
Lemma s_name_stops : stops_with s_name [no_usage (lit "blob"); no_type (lit "blob")].
Proof. stop_tac. Qed.
Lemma s_call_stops : stops_with s_call [no_usage (lit "init"); asm_note (lit "nop") (lit "main")].
Proof. stop_tac. Qed.
Lemma s_sizes_stops : stops_with s_sizes [asm_note (lit "push {r4}") (lit "main"); override_note (lit "main") 8 12 (lit "function uses inline assembly")].
Proof. stop_tac. Qed.
Lemma s_branch_stops : stops_with s_branch [asm_note (lit "push {r4}") (lit "main"); override_note (lit "main") 8 12 (lit "function uses inline assembly")].
Proof. stop_tac. Qed.

(** The run of a program that calls a function which does not exist. *)
Definition stop_ll : str :=
  lit "define void @main() {" ++ nl ++ lit "start:" ++ nl ++ lit "  call void asm sideeffect ""wfi"", """"()" ++ nl ++ lit "  call void @nowhere()" ++ nl ++ lit "  ret void" ++ nl ++ lit "}" ++ nl.
Definition stop_w : world :=
  mkWorld (w_wrapper ex_w) (w_argv ex_w) (w_rustc ex_w) (w_hash ex_w) (w_host ex_w) (w_meta ex_w) (w_override ex_w) (w_args ex_w) (w_project ex_w) (w_root ex_w) (w_cfg ex_w) (w_exe ex_w)
    (w_set_times ex_w) (w_exists ex_w) (w_walk ex_w) (w_cargo ex_w) (w_utf8 ex_w) (w_path ex_w) (w_dir ex_w)
    (fun path => if str_eqb path (lit "t/release/deps/my_app-1f.ll") then Ret stop_ll else w_read ex_w path)
    (w_object ex_w) (w_archive ex_w) (w_executable ex_w) (w_symtab ex_w) (w_text ex_w) (w_defines_order ex_w) (w_orders ex_w) (w_fault ex_w).
Lemma stop_sane : sane stop_w.
Proof. destruct (ex_sane ex_args None good None ex_stderr (Some 0%Z)) as [A B C D]. constructor; assumption. Qed.
Definition stop_p : prog := mkProg OtherTarget
  [fdef "memcpy" (fsig [] None) [Label; Other]; fdef "main" (fsig [] None) [Label; Asm (lit "wfi"); DirectCall (lit "nowhere"); Other]] []
  [(lit "main", 16%N); (lit "leaf", 8%N); (lit "memcpy", 4%N)]
  [X_build.at_ 4096 ["main"]; X_build.at_ 4112 ["leaf"]; X_build.at_ 4128 ["memcpy"]] [] [] None.
Lemma stop_load : load stop_w (lit "x86_64-unknown-linux-gnu") (lit "my-app") (lit "t/cb.rlib") (lit "t/compiler_builtins-3f.ll") = Ret stop_p.
Proof. vm_compute. reflexivity. Qed.
Lemma stop_run : exists t, main idd stop_w = (t, 101%Z) /\ printed t = [] /\ messages t = [no_type (lit "leaf"); asm_note (lit "wfi") (lit "main")].
Proof. eexists. split; [vm_compute; reflexivity|]. split; vm_compute; reflexivity. Qed.
Lemma stop_not : wf_prog stop_p /\ ~ understood stop_p.
Proof.
  assert (W : wf_prog stop_p) by (apply wf_progb_sound; vm_compute; reflexivity). split; [exact W|]. intros U. apply (build_iff idd o_id stop_p W) in U. destruct U as [b E]. vm_compute in E. discriminate E.
Qed.

Definition torn_ll : str :=
  lit "define void @main() {" ++ nl ++ lit "start:" ++ nl ++ lit "  call void asm sideeffect ""wfi"", """"()" ++ nl ++ lit "  ret void" ++ nl ++ lit "}" ++ nl.
(** The run of a program for a Thumb target whose symbol table cannot be read. *)
Definition torn_w : world :=
  let w := ex_world ex_args ex_config good None ex_stderr (Some 0%Z) in
  mkWorld (w_wrapper w) (w_argv w) (w_rustc w) (w_hash w) (w_host w) (w_meta w) (w_override w) (w_args w) (w_project w) (w_root w) (w_cfg w) (w_exe w)
    (w_set_times w) (w_exists w) (w_walk w) (w_cargo w) (w_utf8 w) (w_path w) (w_dir w)
    (fun path => if str_eqb path (lit "t/release/deps/my_app-1f.ll") then Ret torn_ll else w_read w path)
    (w_object w) (w_archive w) (w_executable w) (fun _ => Panic "UNREACHABLE") (w_text w) (w_defines_order w) (w_orders w) (w_fault w).
Lemma torn_sane : sane torn_w.
Proof. destruct (ex_sane ex_args ex_config good None ex_stderr (Some 0%Z)) as [A B C D]. constructor; assumption. Qed.
Definition torn_p : prog := mkProg Thumbv7m
  [fdef "memcpy" (fsig [] None) [Label; Other]; fdef "main" (fsig [] None) [Label; Asm (lit "wfi"); Other]] []
  [(lit "main", 16%N); (lit "leaf", 8%N); (lit "memcpy", 4%N)]
  [X_build.at_ 4096 ["main"]; X_build.at_ 4112 ["leaf"]; X_build.at_ 4128 ["memcpy"]] [] [] (Some (4096%N, repeat "000"%char 48)).
Lemma torn_load : load (without_symtab torn_w) (lit "thumbv7m-none-eabi") (lit "my-app") (lit "t/cb.rlib") (lit "t/compiler_builtins-3f.ll") = Ret torn_p.
Proof. vm_compute. reflexivity. Qed.
Lemma torn_run : exists t, main idd torn_w = (t, 101%Z) /\ printed t = [] /\ messages t = [no_type (lit "leaf"); asm_note (lit "wfi") (lit "main")].
Proof. eexists. split; [vm_compute; reflexivity|]. split; vm_compute; reflexivity. Qed.
Lemma torn_table : no_symtab torn_w (lit "my-app").
Proof. exists (lit "t/release/my-app"), (lit "ELF"). split; [reflexivity|]. split; [vm_compute; reflexivity | intros s; discriminate]. Qed.
