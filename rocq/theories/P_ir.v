(** Properties C30-C36 and C55: LLVM IR text. *)
From Verif Require Import M_base M_nom M_ty M_parse S_ir X_parse L_ir1 L_ir2 L_ir3 L_ir5 L_ir7 L_ir8 L_ir9.

(** C30: any way to write a type is read as that type, up to where it ends. *)
Theorem C30_types_are_read : forall t s rest, ty_text t s -> void_ok t = true -> type_ends rest = true ->
  type_ (s ++ rest) = Done rest t.
Proof. exact type_text_ok. Qed.
Print Assumptions C30_types_are_read.
Example C30_types_case : ty_text (TPtr (TFn [TInt 32] (Some (TInt 32)))) (lit "i32 (i32)*") /\ type_ends (lit " @foo()") = true.
Proof. split; [exact ex_fnptr | reflexivity]. Qed.

(** C30, first half: parsing the printed form of a type. *)
Theorem C30_print_parse_partial : forall t rest, writable t = true -> void_ok t = true -> type_ends rest = true ->
  type_ (show_ty t ++ rest) = Done rest t.
Proof. exact print_parse. Qed.
Print Assumptions C30_print_parse_partial.
Example C30_print_case : exists t, writable t = true /\ void_ok t = true /\ show_ty t = lit "[2 x {i8, <4 x i32>* }]".
Proof. exists (TArray 2 (TStruct [TInt 8; TPtr (TVec 4 (TInt 32))])). repeat split. Qed.
(** The condition [void_ok] is needed: a function returning a pointer to a function returning void is not read back. *)
Theorem C30_void_refuted : exists t r u, writable t = true /\ type_ (show_ty t) = Done r u /\ r <> [] /\ u <> t.
Proof. exact odd_refuted. Qed.
Print Assumptions C30_void_refuted.

(** C30, second half: different signatures have different labels... *)
Theorem C30_labels_differ : forall s1 s2, sig_writable s1 = true -> sig_void_ok s1 = true -> sig_writable s2 = true -> sig_void_ok s2 = true ->
  show_sig s1 = show_sig s2 -> s1 = s2.
Proof. exact label_inj. Qed.
Print Assumptions C30_labels_differ.
(** ... and so for all signatures of a module that was read. *)
Theorem C30_labels_of_a_module_differ : forall ll its s1 s2, parse ll = Parsed its ->
  In s1 (flat_map sigs_of its) -> In s2 (flat_map sigs_of its) -> show_sig s1 = show_sig s2 -> s1 = s2.
Proof. exact parsed_labels_differ. Qed.
Print Assumptions C30_labels_of_a_module_differ.
Example C30_labels_case : parse ex_module = Parsed [IComment; IDefine ex_define] /\ In ex_sig (flat_map sigs_of [IComment; IDefine ex_define]).
Proof. split; [exact (module_ok _ _ ex_module_ok) | right; left; reflexivity]. Qed.

(** C31: matching of signatures. *)
Theorem C31_matching_rule : forall a b, sig_loose a b = true <-> sig_matches a b.
Proof. exact sig_loose_iff. Qed.
Print Assumptions C31_matching_rule.
Theorem C31_reflexive : forall s, sig_loose s s = true.
Proof. exact sig_loose_refl. Qed.
Print Assumptions C31_reflexive.
Theorem C31_symmetric : forall a b, sig_loose a b = sig_loose b a.
Proof. exact sig_loose_sym. Qed.
Print Assumptions C31_symmetric.
(** It is not an equivalence. *)
Theorem C31_transitive_refuted : exists a b c, sig_loose a b = true /\ sig_loose b c = true /\ sig_loose a c = false.
Proof. exact loose_not_transitive. Qed.
Print Assumptions C31_transitive_refuted.
Example C31_case : sig_matches {| inputs := [TPtr (TInt 8); TInt 32]; output := Some TOpaque |} {| inputs := [TOpaque; TInt 32]; output := Some (TPtr TFloat) |}.
Proof. split; [|right; repeat split; left; reflexivity]. constructor; [right; repeat split; right; reflexivity|]. constructor; [left; reflexivity | constructor]. Qed.

(** C32: every statement with the word `call` in an accepted module is recorded as a call. *)
Theorem C32_no_call_dropped_partial : forall ll its, parse ll = Parsed its -> module_text item_ok its ll.
Proof. exact parsed_calls. Qed.
Print Assumptions C32_no_call_dropped_partial.
Example C32_case : parse ex_module = Parsed [IComment; IDefine ex_define].
Proof. exact (module_ok _ _ ex_module_ok). Qed.
(** `invoke` of inline assembly or of a cast function is dropped silently. *)
Theorem C32_invoke_bitcast_refuted : exists line n rest, line = lit "  invoke void bitcast (i8* @" ++ n ++ rest /\
  parse (module2 line) = Parsed [g_with [Other; Other]].
Proof. exact invoke_dropped. Qed.
Print Assumptions C32_invoke_bitcast_refuted.
Theorem C32_invoke_asm_refuted : exists line code rest, line = lit "  invoke void asm sideeffect " ++ [dquote] ++ code ++ rest /\
  parse (module2 line) = Parsed [g_with [Other; Other]].
Proof. exact invoke_asm_dropped. Qed.
Print Assumptions C32_invoke_asm_refuted.

(** C33: the result of reading any text.  On failure the line is that at which the rest [suf] begins; either no item can be
    read there, or an item ended there but not at the end of a line, or the text began with line ends. *)
Theorem C33_error_line : forall ll,
  (exists its, parse ll = Parsed its /\ module_text (fun it s => exists r, item_ (s ++ r) = Done r it) its ll) \/
  (exists its pre suf, parse ll = Failed (line_feeds pre + 1) /\ ll = pre ++ suf /\ suf <> [] /\ at_eol suf = false /\
     module_text (fun it s => exists r, item_ (s ++ r) = Done r it) its pre /\
     (((exists x, item_ suf = Error x) /\ (pre = [] \/ exists q, pre = q ++ ["010"%char])) \/
      (exists q s it, pre = q ++ s /\ s <> [] /\ item_ (s ++ suf) = Done suf it) \/
      (its = [] /\ eols_text pre))).
Proof. exact parse_total. Qed.
Print Assumptions C33_error_line.
(** The parser of modules fails in one way only, by which the message can say `Failure("Eof in line ...")`. *)
Theorem C33_only_one_kind_of_error : forall ll, exists pre suf its, ll = pre ++ suf /\ items ll = match suf with [] => Done [] its | _ => Failure suf end.
Proof. intros ll. destruct (items_read ll) as [its [pre [suf [E [_ [_ [I _]]]]]]]. exists pre, suf, its. exact (conj E I). Qed.
Print Assumptions C33_only_one_kind_of_error.
Example C33_case : parse (lit "; x" ++ nl ++ lit "  bad") = Failed 2 /\ exists its, parse ex_module = Parsed its.
Proof. split; [vm_compute; reflexivity | eexists; exact (module_ok _ _ ex_module_ok)]. Qed.
(** The item at the reported line need not be the culprit: a blank line at the beginning is not accepted. *)
Theorem C33_offending_line_refuted : exists ll it, item_ ll = Done [] it /\ parse (nl ++ ll) = Failed 2.
Proof. exact leading_blank_line. Qed.
Print Assumptions C33_offending_line_refuted.

(** C34: direct calls. *)
Theorem C34_direct_call : forall callee s r, direct_text callee s -> at_eol r = true -> stmt_ (s ++ r) = Done r (DirectCall callee).
Proof. exact direct_ok. Qed.
Print Assumptions C34_direct_call.
Example C34_case : direct_text (lit "core::fmt") ex_direct /\ at_eol (nl ++ lit "}") = true.
Proof. split; [exact ex_direct_ok | reflexivity]. Qed.
(** Calls of a cast function, and inline assembly. *)
Theorem C34_bitcast_call : forall callee s r, bitcast_text callee s -> at_eol r = true -> stmt_ (s ++ r) = Done r (BitcastCall (Some callee)).
Proof. exact bitcast_call_ok. Qed.
Print Assumptions C34_bitcast_call.
Theorem C34_asm : forall code s r, asm_text code s -> at_eol r = true -> stmt_ (s ++ r) = Done r (Asm code).
Proof. exact asm_ok. Qed.
Print Assumptions C34_asm.
Example C34_bitcast_case : bitcast_text (lit "__sbss") (lit "  tail call fastcc i32 bitcast (i8* @__sbss to i32*)() #6, !dbg !1177").
Proof. exact ex_bitcast_ok. Qed.
Example C34_asm_case : asm_text (lit "mrs $0, BASEPRI") (lit "  tail call i32 asm sideeffect " ++ [dquote] ++ lit "mrs $0, BASEPRI" ++ [dquote] ++ lit "()").
Proof. exact ex_asm_ok. Qed.

(** C35: indirect calls. *)
Theorem C35_indirect_call : forall f s r, indirect_text f s -> at_eol r = true -> stmt_ (s ++ r) = Done r (IndirectCall f).
Proof. exact indirect_ok. Qed.
Print Assumptions C35_indirect_call.
Example C35_case : indirect_text ex_sig ex_indirect.
Proof. exact ex_indirect_ok. Qed.
(** With variable arguments (where LLVM writes the type of the function) the return type recorded is the type of the function. *)
Theorem C35_varargs_refuted : exists s f u, stmt_ s = Done [] (IndirectCall f) /\
  s = lit "  call i32 (i32, ...) %f(i32 1)" /\ output f = Some (TFn [TInt 32; TVarargs] u) /\ inputs f = [TInt 32].
Proof. exact varargs_refuted. Qed.
Print Assumptions C35_varargs_refuted.

(** C36: definitions. *)
Theorem C36_definition : forall d s r, define_text d s -> define_ (s ++ r) = Done r d.
Proof. exact define_ok. Qed.
Print Assumptions C36_definition.
Example C36_case : define_text ex_define ex_define_text.
Proof. exact ex_define_ok. Qed.

(** C55: modules. *)
Theorem C55_module : forall its ll, module_text item_text its ll -> parse ll = Parsed its.
Proof. exact module_ok. Qed.
Print Assumptions C55_module.
Example C55_case : module_text item_text [IComment; IDefine ex_define] ex_module.
Proof. exact ex_module_ok. Qed.
