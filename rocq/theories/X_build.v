(** Example programs for the properties of the call graph construction. *)
From Coq Require Import Permutation.
From Verif Require Import M_base M_stack M_graph M_analysis M_filter M_names M_thumb M_ty M_parse M_build S_names S_graph S_thumb S_build L_base L_names L_ir2 L_build1.
Local Open Scope string_scope.
Local Open Scope list_scope.

(** ** Deciding well-formedness *)
Fixpoint nodupb {A} (eqb : A -> A -> bool) (l : list A) : bool :=
  match l with [] => true | x :: l => negb (existsb (eqb x) l) && nodupb eqb l end.
Lemma nodupb_sound {A} (eqb : A -> A -> bool) l : (forall x, eqb x x = true) -> nodupb eqb l = true -> NoDup l.
Proof.
  intros R. induction l as [|x l IH]; intros H; [constructor|]. cbn [nodupb] in H. apply andb_prop in H. destruct H as [H1 H2]. constructor; [|exact (IH H2)].
  intros I. apply negb_true_iff in H1. assert (X : existsb (eqb x) l = true) by (apply existsb_exists; exists x; split; [exact I | apply R]). congruence.
Qed.
Definition wf_progb (p : prog) : bool :=
  nodupb str_eqb (map fst (pg_defines p)) && forallb (fun x => str_eqb (fst x) (d_name (snd x))) (pg_defines p) &&
  nodupb str_eqb (map fst (pg_declares p)) && nodupb str_eqb (map fst (pg_sizes p)) &&
  nodupb N.eqb (map fst (pg_defined p)) && nodupb str_eqb (flat_map real_names (pg_defined p)).
Lemma wf_progb_sound p : wf_progb p = true -> wf_prog p.
Proof.
  unfold wf_progb. intros H. repeat (apply andb_prop in H; destruct H as [H ?]).
  constructor; try (apply (nodupb_sound str_eqb); [apply str_eqb_refl | assumption]).
  - intros n d I. rewrite forallb_forall in H4. apply str_eqb_eq. exact (H4 (n, d) I).
  - apply (nodupb_sound N.eqb); [apply N.eqb_refl | assumption].
Qed.

Definition o_id : orders := mkOrders (fun m => m) (fun _ l => l) (fun _ l => l).
Definition o_rev : orders := mkOrders (@rev _) (fun _ l => rev l) (fun _ l => rev l).
Lemma o_id_fair : fair o_id.
Proof. constructor; intros; reflexivity. Qed.
Lemma o_rev_fair : fair o_rev.
Proof. constructor; intros; symmetry; apply Permutation_rev. Qed.

Definition idd (s : str) : str := s.
Definition fsig (ins : list ty) (out : option ty) : fnsig := {| inputs := ins; output := out |}.
Definition fdef (n : string) (s : fnsig) (l : list stmt) : str * define := (lit n, {| d_name := lit n; d_sig := s; d_stmts := l |}).
Definition at_ (a : N) (ns : list string) : N * symbol := (a, mkSym (map lit ns) 0).
Definition run_max (p : prog) : outcome (list (str * option maxv)) :=
  let* b := build idd o_id p in
  let* (g, cs) := max_stack (b_info b) (b_g b) in
  Ret (map (fun nd => (nname nd, nmax nd)) (gnodes g)).

(** ** A program for a target whose machine code is not read *)
Definition bin : fnsig := fsig [TInt 32] (Some (TInt 32)).
Definition p1 : prog := mkProg OtherTarget
  [fdef "main" (fsig [] None) [SComment; DirectCall (lit "foo_alias"); DirectCall (lit "foo"); DirectCall (lit "llvm.memcpy.p0.p0.i64");
     IndirectCall bin; BitcastCall (Some (lit "bar")); DirectCall (lit "llvm.dbg.value"); DirectCall (lit "leaf")];
   fdef "foo" bin [DirectCall (lit "leaf")]; fdef "bar" bin [DirectCall (lit "extern_fn")];
   fdef "leaf" (fsig [] (Some (TInt 8))) []; fdef "dead" (fsig [] None) [DirectCall (lit "gone")]]
  [(lit "memcpy", Some (fsig [TPtr (TInt 8); TPtr (TInt 8); TInt 64] (Some (TPtr (TInt 8))))); (lit "extern_fn", Some (fsig [] None))]
  [(lit "main", 8%N); (lit "foo_alias", 16%N); (lit "bar", 24%N); (lit "memcpy", 4%N); (lit "leaf", 2%N)]
  [at_ 4096 ["main"]; at_ 4112 ["foo"; "foo_alias"]; at_ 4128 ["bar"]; at_ 4144 ["memcpy"]; at_ 4160 ["leaf"]]
  [lit "extern_fn"] [] None.
Lemma p1_wf : wf_prog p1.
Proof. apply wf_progb_sound. vm_compute. reflexivity. Qed.

(** ** Programs for which a property fails *)
(** `memcmp` is only an alias of the name under which the graph knows the function. *)
Definition p_memcmp : prog := mkProg OtherTarget
  [fdef "main" (fsig [] None) [DirectCall (lit "memcmp")]] [(lit "memcmp", None)]
  [(lit "main", 8%N); (lit "__memcmp_impl", 64%N)]
  [at_ 4096 ["main"]; at_ 4112 ["memcmp"; "__memcmp_impl"]] [] [] None.
(** Two bitcast calls of the same function. *)
Definition p_casts : prog := mkProg OtherTarget
  [fdef "main" (fsig [] None) [BitcastCall (Some (lit "foo")); BitcastCall (Some (lit "foo"))]; fdef "foo" (fsig [] None) []] []
  [(lit "main", 8%N); (lit "foo", 16%N)] [at_ 4096 ["main"]; at_ 4112 ["foo"]] [] [] None.
(** A bitcast call by alias. *)
Definition p_alias : prog := mkProg OtherTarget
  [fdef "main" (fsig [] None) [BitcastCall (Some (lit "foo"))]; fdef "foo" (fsig [] None) []] []
  [(lit "main", 8%N); (lit "foo_alias", 16%N)] [at_ 4096 ["main"]; at_ 4112 ["foo"; "foo_alias"]] [] [] None.
(** A formatting function that is only declared in the IR. *)
Definition void_sig : fnsig := fmt_sig (TAlias (lit "fmt::Void")).
Definition p_fmt : prog := mkProg OtherTarget
  [fdef "main" (fsig [] None) [IndirectCall void_sig]] [(lit "fmt_impl", Some void_sig)]
  [(lit "main", 8%N); (lit "fmt_impl", 16%N)] [at_ 4096 ["main"]; at_ 4112 ["fmt_impl"]] [] [] None.
(** A call through a pointer whose type no known function has; `asm_fn` has no type information. *)
Definition p_asm : prog := mkProg OtherTarget
  [fdef "main" (fsig [] None) [IndirectCall bin]] []
  [(lit "main", 8%N)] [at_ 4096 ["main"]; at_ 4112 ["asm_fn"]] [] [] None.
(** `memcpy` is outside of the executable; one function calls it, another calls the intrinsic. *)
Definition f_call := fdef "f" (fsig [] None) [DirectCall (lit "memcpy")].
Definition f_intr := fdef "g" (fsig [] None) [DirectCall (lit "llvm.memcpy.p0.p0.i64")].
Definition p_order (l : list (str * define)) : prog := mkProg OtherTarget l [] [(lit "f", 8%N); (lit "g", 16%N)]
  [at_ 4096 ["f"]; at_ 4112 ["g"]] [lit "memcpy"] [] None.
(** `llvm.memmove`, with a `memmove` in the executable. *)
Definition p_move : prog := mkProg OtherTarget
  [fdef "main" (fsig [] None) [DirectCall (lit "llvm.memmove.p0.p0.i64")]] [(lit "memmove", None)]
  [(lit "main", 8%N); (lit "memmove", 32%N)] [at_ 4096 ["main"]; at_ 4112 ["memmove"]] [] [] None.
(** Two functions called `init`. *)
Definition p_homonyms : prog := mkProg OtherTarget
  [fdef "main" (fsig [] None) [DirectCall (lit "init")]; fdef "init" (fsig [] None) []] []
  [(lit "main", 8%N); (lit "init", 16%N)] [at_ 4096 ["main"]; at_ 4112 ["init"]; at_ 4128 ["init"]] [] [] None.
(** The name of a function pointer type that looks like a name with a hash. *)
Definition hasher_sig : fnsig := fsig [TPtr (TAlias (lit "m::hasher_state1"))] None.
Definition p_hasher : prog := mkProg OtherTarget
  [fdef "main" (fsig [] None) [IndirectCall hasher_sig]; fdef "feed" hasher_sig []] []
  [(lit "main", 8%N); (lit "feed", 16%N)] [at_ 4096 ["main"]; at_ 4112 ["feed"]] [] [] None.
(** A symbol outside of the executable whose name has a hash. *)
Definition p_hash_extern : prog := mkProg OtherTarget
  [fdef "main" (fsig [] None) [DirectCall (lit "lib::run::h0123456789abcdef")]] []
  [(lit "main", 8%N)] [at_ 4096 ["main"]] [lit "lib::run::h0123456789abcdef"] [] None.

(** ** A thumb program: `push {r7, lr}; bl foo; beq .-2; pop {r7, pc}` and `foo: b bar`, `bar: bx lr` *)
Definition code2 : str := flat_map hw_bytes [0xB580; 0xF000; 0xF802; 0xD0FE; 0xBD80; 0xE7FF; 0x4770]%N.
Definition p2 : prog := mkProg Thumbv7m
  [fdef "main" (fsig [] None) [DirectCall (lit "foo"); DirectCall (lit "llvm.memcpy.p0.p0.i32")]; fdef "foo" (fsig [] None) []] []
  [(lit "main", 8%N); (lit "foo", 0%N)]
  [(4096%N, mkSym [lit "main"] 10); (4106%N, mkSym [lit "foo"] 2); (4108%N, mkSym [lit "bar"] 2)] []
  [(4096%N, TThumb)] (Some (4096%N, code2)).
(** An outlined function for which LLVM and the machine code disagree. *)
Definition p_outlined : prog := mkProg Thumbv7m [] []
  [(lit "OUTLINED_FUNCTION_0", 4%N)] [(4096%N, mkSym [lit "OUTLINED_FUNCTION_0"] 4)] []
  [(4096%N, TThumb)] (Some (4096%N, flat_map hw_bytes [0xB580; 0xBD80]%N)).

(** ** A program without the constructs that the tool overlooks *)
Definition p3 : prog := mkProg OtherTarget
  [fdef "main" (fsig [] None) [DirectCall (lit "foo"); IndirectCall bin; BitcastCall (Some (lit "leaf"))];
   fdef "foo" bin [DirectCall (lit "leaf"); Other]; fdef "bar" bin []; fdef "leaf" (fsig [] (Some (TInt 8))) []]
  [] [(lit "main", 8%N); (lit "foo", 16%N); (lit "bar", 24%N); (lit "leaf", 2%N)]
  [at_ 4096 ["main"]; at_ 4112 ["foo"; "$x"]; at_ 4128 ["bar"]; at_ 4160 ["leaf"]] [] [] None.
(** A program where the call of [odd] through a cast of an alias is overlooked (C56), which does not concern [main]. *)
Definition p_odd : prog := mkProg OtherTarget
  [fdef "main" (fsig [] None) [DirectCall (lit "leaf")]; fdef "leaf" (fsig [] (Some (TInt 8))) []; fdef "odd" (fsig [] None) [BitcastCall (Some (lit "alias"))]]
  [] [(lit "main", 8%N); (lit "leaf", 16%N); (lit "odd", 4%N); (lit "real", 1%N)]
  [at_ 4096 ["main"]; at_ 4112 ["leaf"]; at_ 4128 ["odd"]; at_ 4160 ["real"; "alias"]] [] [] None.
(** [p3] with other iteration orders. *)
Definition p3' : prog := mkProg OtherTarget (rev (pg_defines p3)) [] (rev (pg_sizes p3)) (pg_defined p3) [] [] None.

(** A program with a function without type information, and one with an intrinsic that the tool does not know. *)
Definition p_untyped : prog := mkProg OtherTarget
  [fdef "main" (fsig [] None) [IndirectCall bin]; fdef "foo" bin []] []
  [(lit "main", 8%N); (lit "foo", 16%N)] [at_ 4096 ["main"]; at_ 4112 ["foo"]; at_ 4128 ["asm_fn"]] [] [] None.
Definition p_bug : prog := mkProg OtherTarget
  [fdef "main" (fsig [] None) [DirectCall (lit "llvm.fancy.op")]] [] [(lit "main", 8%N)] [at_ 4096 ["main"]] [] [] None.
