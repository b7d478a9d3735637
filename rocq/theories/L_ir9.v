(** Counterexamples and example inputs for the properties of the LLVM IR parser. *)
From Verif Require Import M_base M_nom M_ty M_parse S_ir X_parse L_ir2 L_ir3 L_ir8.

(** A function that returns a pointer to a function that returns void. *)
Definition odd_ty : ty := TFn [TInt 8] (Some (TPtr (TFn [] None))).
Lemma odd_not_read : writable odd_ty = true /\ show_ty odd_ty = lit "void ()* (i8)" /\
  type_ (show_ty odd_ty) = Done (lit " (i8)") (TPtr (TFn [] None)).
Proof. repeat split. Qed.

Lemma odd_refuted : exists t r u, writable t = true /\ type_ (show_ty t) = Done r u /\ r <> [] /\ u <> t.
Proof.
  destruct odd_not_read as [H1 [_ H2]]. exists odd_ty, (lit " (i8)"), (TPtr (TFn [] None)).
  split; [exact H1|]. split; [exact H2|]. split; discriminate.
Qed.

Lemma parsed_labels ll its : parse ll = Parsed its -> Forall (fun it =>
  match it with
  | IDefine d => (sig_writable (d_sig d) = true /\ sig_void_ok (d_sig d) = true) /\
                 Forall (fun st => match st with IndirectCall s => sig_writable s = true /\ sig_void_ok s = true | _ => True end) (d_stmts d)
  | IDeclare _ (Some s) => sig_writable s = true /\ sig_void_ok s = true
  | _ => True
  end) its.
Proof. exact (parse_fine ll its). Qed.

Lemma sigs_fine ll its s : parse ll = Parsed its -> In s (flat_map sigs_of its) -> sig_writable s = true /\ sig_void_ok s = true.
Proof.
  intros E H. pose proof (parsed_labels ll its E) as F. apply in_flat_map in H. destruct H as [it [Hit H]].
  rewrite Forall_forall in F. specialize (F it Hit). destruct it; cbn [sigs_of] in H; try destruct H; cbn in F.
  - subst s. apply F.
  - destruct F as [_ F]. apply in_flat_map in H. destruct H as [st [Hst H]]. rewrite Forall_forall in F. specialize (F st Hst).
    destruct st; try destruct H; [subst s; exact F | contradiction].
  - match goal with H : In s (match ?o with Some _ => _ | None => _ end) |- _ => destruct o as [s'|]; [|destruct H] end.
    destruct H as [<- | []]. exact F.
Qed.
Lemma parsed_labels_differ ll its s1 s2 : parse ll = Parsed its -> In s1 (flat_map sigs_of its) -> In s2 (flat_map sigs_of its) ->
  show_sig s1 = show_sig s2 -> s1 = s2.
Proof.
  intros E H1 H2. destruct (sigs_fine _ _ _ E H1) as [W1 V1]. destruct (sigs_fine _ _ _ E H2) as [W2 V2]. exact (label_inj s1 s2 W1 V1 W2 V2).
Qed.

Lemma loose_not_transitive : exists a b c, sig_loose a b = true /\ sig_loose b c = true /\ sig_loose a c = false.
Proof.
  exists {| inputs := [TPtr (TInt 8)]; output := None |}, {| inputs := [TOpaque]; output := None |}, {| inputs := [TPtr (TInt 32)]; output := None |}.
  repeat split.
Qed.

(** Statements that call something and are recorded as `Other`. *)
Definition invoke_asm : str := t "  invoke void asm sideeffect 'bl f', ''() to label %a unwind label %b".
Definition invoke_cast : str := t "  invoke void bitcast (i8* @f to void ()*)() to label %a unwind label %b".
Definition module2 (line : str) : str := t "define void @g() {" ++ nl ++ line ++ nl ++ t "  ret void" ++ nl ++ t "}" ++ nl.
Definition g_with (l : list stmt) : item :=
  IDefine {| d_name := lit "g"; d_sig := {| inputs := []; output := None |}; d_stmts := l |}.
Lemma invoke_dropped : exists line n rest, line = lit "  invoke void bitcast (i8* @" ++ n ++ rest /\
  parse (module2 line) = Parsed [g_with [Other; Other]].
Proof. exists invoke_cast, (lit "f"), (lit " to void ()*)() to label %a unwind label %b"). split; [reflexivity|]. vm_compute. reflexivity. Qed.
Lemma invoke_asm_dropped : exists line code rest, line = lit "  invoke void asm sideeffect " ++ [dquote] ++ code ++ rest /\
  parse (module2 line) = Parsed [g_with [Other; Other]].
Proof. exists invoke_asm, (lit "bl f"), (t "', ''() to label %a unwind label %b"). split; [reflexivity|]. vm_compute. reflexivity. Qed.
(** Other calls that cannot be read make the whole module fail. *)
Lemma unread_calls : Forall (fun line => parse (module2 line) = Failed 1)
  [t "  musttail call void @f()"; t "  notail call void @f()"; t "  call void %f(float 1.0)"; t "  call void %f(ptr poison)"; t "  call void %'f'()"].
Proof. repeat constructor; vm_compute; reflexivity. Qed.

(** A blank line at the beginning. *)
Lemma leading_blank_line : exists ll it, item_ ll = Done [] it /\ parse (nl ++ ll) = Failed 2.
Proof. exists (t "; x"), IComment. split; vm_compute; reflexivity. Qed.
(** A blank line before the closing brace, or after the opening one. *)
Lemma blank_line_in_body : parse (t "define void @f() {" ++ nl ++ t "  ret void" ++ nl ++ nl ++ t "}") = Failed 1 /\
  parse (t "define void @f() {" ++ nl ++ nl ++ t "  ret void" ++ nl ++ t "}") = Failed 1.
Proof. split; vm_compute; reflexivity. Qed.

(** The variable arguments form: the type of the function is taken for the return type. *)
Lemma varargs_call : stmt_ (lit "  call i32 (i32, ...) %f(i32 1)") =
  Done [] (IndirectCall {| inputs := [TInt 32]; output := Some (TFn [TInt 32; TVarargs] (Some (TInt 32))) |}).
Proof. vm_compute. reflexivity. Qed.

Lemma varargs_refuted : exists s f u, stmt_ s = Done [] (IndirectCall f) /\
  s = lit "  call i32 (i32, ...) %f(i32 1)" /\ output f = Some (TFn [TInt 32; TVarargs] u) /\ inputs f = [TInt 32].
Proof. eexists _, _, _. split; [exact varargs_call|]. repeat split. Qed.

(** * Example inputs *)
Ltac notin := intros Hin; cbn in Hin; repeat (destruct Hin as [Hin | Hin]; [discriminate Hin|]); exact Hin.
Lemma ident_lit s : s <> [] -> all s_ident s -> not_head s_digit s = true -> ident_text s.
Proof. repeat split; assumption. Qed.
Ltac word := apply at_word; [discriminate | reflexivity | notin].

Definition ex_direct : str := lit "  %0 = tail call nonnull align 4 i32 (i32)* @" ++ dquote :: lit "core::fmt" ++ dquote :: lit "(), !dbg !1200".
Lemma num n s : s <> [] -> all s_digit s -> value_of s = n -> (n < 2 ^ 64)%N -> number n s.
Proof. repeat split; assumption. Qed.
Lemma tx_i n s : s <> [] -> all s_digit s -> value_of s = n -> (n < 2 ^ 64)%N -> ty_text (TInt n) (lit "i" ++ s).
Proof. intros. apply tx_int. apply num; assumption. Qed.
Lemma ex_i32 : ty_text (TInt 32) (lit "i32").
Proof. apply (tx_i 32 (lit "32")); (discriminate || reflexivity). Qed.
Lemma ex_i8 : ty_text (TInt 8) (lit "i8").
Proof. apply (tx_i 8 (lit "8")); (discriminate || reflexivity). Qed.
Lemma ex_i1 : ty_text (TInt 1) (lit "i1").
Proof. apply (tx_i 1 (lit "1")); (discriminate || reflexivity). Qed.
Lemma ex_fnptr : ty_text (TPtr (TFn [TInt 32] (Some (TInt 32)))) (lit "i32 (i32)*").
Proof.
  apply (tx_ptr _ (lit "i32 (i32)")). apply (tx_fn [TInt 32] [lit "i32"] (TInt 32) (lit "i32")); [|exact ex_i32].
  constructor; [exact ex_i32 | constructor].
Qed.
Lemma ex_direct_ok : direct_text (lit "core::fmt") ex_direct.
Proof.
  apply (dc (lit "core::fmt") (lit "  ") (lit "%0 = ") (lit "tail ") (lit "call") [lit "nonnull"; lit "align 4"]
            (Some (TPtr (TFn [TInt 32] (Some (TInt 32))))) (lit "i32 (i32)*") (dquote :: lit "core::fmt" ++ [dquote]) (lit "), !dbg !1200")).
  - discriminate.
  - reflexivity.
  - apply (as_local (lit "%0")). apply (lo_number (lit "0")). split; [discriminate | reflexivity].
  - right. reflexivity.
  - left. reflexivity.
  - constructor; [word|]. constructor; [|constructor]. apply (at_align (lit "4")). split; [discriminate | reflexivity].
  - apply rt_ty; [exact ex_fnptr | reflexivity].
  - apply nt_quoted. notin.
  - reflexivity.
Qed.

Definition ex_sig : fnsig := {| inputs := [TPtr (TStruct []); TInt 8]; output := Some (TInt 1) |}.
Definition ex_indirect : str := lit "  %113 = call zeroext i1 %112({}* nonnull %109, i8 -126) #10, !dbg !30714".
Lemma ex_indirect_ok : indirect_text ex_sig ex_indirect.
Proof.
  apply (ic ex_sig (lit "  ") (lit "%113 = ") [] (lit "call") [lit "zeroext"] (lit "i1") (lit "%112") [lit "{}* nonnull %109"; lit "i8 -126"]
            (lit " #10, !dbg !30714")).
  - discriminate.
  - reflexivity.
  - apply (as_local (lit "%113")). apply (lo_number (lit "113")). split; [discriminate | reflexivity].
  - left. reflexivity.
  - left. reflexivity.
  - constructor; [word | constructor].
  - apply rt_ty; [exact ex_i1 | reflexivity].
  - apply (lo_number (lit "112")). split; [discriminate | reflexivity].
  - constructor; [|constructor; [|constructor]].
    + apply (arg (TPtr (TStruct [])) (lit "{}*") [lit "nonnull"] (lit "%109")); [|reflexivity | constructor; [word | constructor] |].
      * apply (tx_ptr _ (lit "{}")). apply (tx_struct [] [] [] []); [constructor | reflexivity | reflexivity].
      * apply va_local. apply (lo_number (lit "109")). split; [discriminate | reflexivity].
    + apply (arg (TInt 8) (lit "i8") [] (lit "-126")); [exact ex_i8 | reflexivity | constructor |].
      apply (va_neg (lit "126")). split; [discriminate | reflexivity].
  - reflexivity.
Qed.

Definition ex_define : define :=
  {| d_name := lit "f"; d_sig := {| inputs := [TInt 8; TOpaque]; output := None |}; d_stmts := [Label; DirectCall (lit "core::fmt"); IndirectCall ex_sig; Other] |}.
Definition ex_define_text : str :=
  lit "define internal void @f(i8 zeroext %x, ptr nonnull) unnamed_addr #0 !dbg !2105 {" ++ nl ++
  lit "start:" ++ nl ++ ex_direct ++ nl ++ ex_indirect ++ nl ++ nl ++ lit "  ret void" ++ nl ++ lit "}".
Lemma ex_body_ok : glued stmt_text (d_stmts ex_define) (lit "start:" ++ nl ++ ex_direct ++ nl ++ ex_indirect ++ (nl ++ nl) ++ lit "  ret void").
Proof.
  pose proof (eols_one _ eol_lf) as E1. pose proof (eols_more _ _ eol_lf E1) as E2.
  apply gl_cons; [|exact E1|apply gl_cons; [|exact E1|apply gl_cons; [|exact E2|apply gl_one]]].
  - apply st_label. apply (la (lit "start") (lit "start")). apply nt_plain. repeat split; discriminate.
  - apply st_direct. exact ex_direct_ok.
  - apply st_indirect. exact ex_indirect_ok.
  - apply st_other. apply (ot (lit "  ") [] (lit "ret") [lit "void"]); try (discriminate || reflexivity).
    + constructor.
    + split; [discriminate | reflexivity].
    + constructor; [split; [discriminate | reflexivity] | constructor].
    + notin.
    + cbn [space_list]. repeat (apply ba_char; [discriminate|]). constructor.
    + intros [a [l [b [Hl E]]]]. apply (f_equal (existsb (Ascii.eqb "("))) in E. rewrite !existsb_app in E. cbn in E. rewrite !orb_true_r in E. discriminate E.
Qed.
Lemma ex_define_ok : define_text ex_define ex_define_text.
Proof.
  apply (df ex_define (lit "define internal void @f(i8 zeroext %x, ptr nonnull) unnamed_addr #0 !dbg !2105 {") nl
            (lit "start:" ++ nl ++ ex_direct ++ nl ++ ex_indirect ++ (nl ++ nl) ++ lit "  ret void") nl); [|exact eol_lf|exact ex_body_ok|exact eol_lf].
  apply (hd _ _ [lit "internal"] (lit "void") (lit "f") [lit "i8 zeroext %x"; lit "ptr nonnull"] (lit " unnamed_addr #0 !dbg !2105 {")).
  - constructor; [word | constructor].
  - constructor.
  - apply nt_plain. repeat split; discriminate.
  - constructor; [|constructor; [|constructor]].
    + apply (pa_name (TInt 8) (lit "i8") [lit "zeroext"] (lit "x") (lit "x")); [exact ex_i8 | reflexivity | constructor; [word | constructor] |].
      apply nt_plain. repeat split; discriminate.
    + apply (pa_noname TOpaque (lit "ptr") [lit "nonnull"]); [constructor | reflexivity | constructor; [word | constructor]].
  - reflexivity.
Qed.
Definition ex_module : str := (lit "; ModuleID = x" ++ nl ++ ex_define_text) ++ nl.
Lemma ex_module_ok : module_text item_text [IComment; IDefine ex_define] ex_module.
Proof.
  apply mo_some; [|right; apply eols_one; exact eol_lf].
  apply gl_cons; [|apply eols_one; exact eol_lf|apply gl_one].
  - apply (it_comment (lit " ModuleID = x")). reflexivity.
  - apply it_define. exact ex_define_ok.
Qed.
Lemma ex_bitcast_ok : bitcast_text (lit "__sbss") (lit "  tail call fastcc i32 bitcast (i8* @__sbss to i32*)() #6, !dbg !1177").
Proof.
  apply (bc (lit "__sbss") (lit "  ") [] (lit "tail ") [lit "fastcc"] (Some (TInt 32)) (lit "i32") (TPtr (TInt 8)) (lit "i8*") (lit "__sbss") (TPtr (TInt 32)) (lit "i32*") (lit "() #6, !dbg !1177")).
  all: try (discriminate || reflexivity).
  - constructor.
  - right. reflexivity.
  - constructor; [word | constructor].
  - apply rt_ty; [exact ex_i32 | reflexivity].
  - apply (tx_ptr _ (lit "i8")). exact ex_i8.
  - apply nt_plain. repeat split; discriminate.
  - intros [_ H]. discriminate H.
  - apply (tx_ptr _ (lit "i32")). exact ex_i32.
Qed.
Lemma ex_asm_ok : asm_text (lit "mrs $0, BASEPRI") (lit "  tail call i32 asm sideeffect " ++ [dquote] ++ lit "mrs $0, BASEPRI" ++ [dquote] ++ lit "()").
Proof.
  apply (am (lit "mrs $0, BASEPRI") (lit "  ") [] (lit "tail ") (Some (TInt 32)) (lit "i32") [lit "sideeffect"] (lit "()")).
  all: try (discriminate || reflexivity).
  - constructor.
  - right. reflexivity.
  - apply rt_ty; [exact ex_i32 | reflexivity].
  - constructor; [repeat split; discriminate | constructor].
  - notin.
Qed.
