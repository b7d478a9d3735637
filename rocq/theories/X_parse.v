(** The unit tests of src/ir.rs, src/ir/ty.rs, src/ir/item.rs and src/ir/define.rs, run on the model (evidence that the
    transcription is faithful; these are tests, not properties). *)
From Verif Require Import M_base M_nom M_ty M_parse.

Definition q (s : str) : str := map (fun c => if Ascii.eqb c "'" then dquote else c) s.
(** A literal in which an apostrophe stands for a double quote. *)
Definition t (s : string) : str := q (lit s).
Definition I (n : N) := TInt n.

Example t_alias : alias (t "%'blue_pill::ItmLogger'") = Done [] (t "blue_pill::ItmLogger").
Proof. reflexivity. Qed.
Example t_alias2 : alias (t "%ExceptionFrame") = Done [] (t "ExceptionFrame").
Proof. reflexivity. Qed.
Example t_attr : exists e, attribute (t "void") = Error e.
Proof. eexists. reflexivity. Qed.
Example t_bitcast : exists x, bitcast (t "bitcast (i8* getelementptr inbounds (<{ [228 x i8] }>, <{ [228 x i8] }>* @_ZN17at28c_rs_firmware3APP7usb_dev17h0475a05cee83d665E, i32 0, i32 0, i32 44) to i32*)") = Done [] x.
Proof. eexists. vm_compute. reflexivity. Qed.
Example t_gep : getelementptr (t "getelementptr inbounds (<{ [0 x i8] }>, <{ [0 x i8] }>* @anon.3751ff68b49c735a867036886cf6a576.71, i32 0, i32 0)")
  = Done [] (Some (t "anon.3751ff68b49c735a867036886cf6a576.71")).
Proof. vm_compute. reflexivity. Qed.
Example t_ident : ident (t "ExceptionFrame ") = Done (t " ") (t "ExceptionFrame").
Proof. reflexivity. Qed.
Example t_ident2 : (exists e, ident (t "'foo'") = Error e) /\ exists e, ident (t "0foo") = Error e.
Proof. split; eexists; reflexivity. Qed.
Example t_local : local (t "%_17.0.i.i.i.i.i") = Done [] tt /\ local (t "%113") = Done [] tt /\ local (t "%.9") = Done [] tt.
Proof. repeat split. Qed.
Example t_sig : show_sig {| inputs := [I 8]; output := Some (I 8) |} = lit "i8 (i8)".
Proof. reflexivity. Qed.
Example t_string : string_ (t "'\22He\0Allo\22'") = Done [] (t "\22He\0Allo\22").
Proof. reflexivity. Qed.

Example t_struct : type_ (t "{ { i8, i16 }, { i8*, i16* } }")
  = Done [] (TStruct [TStruct [I 8; I 16]; TStruct [TPtr (I 8); TPtr (I 16)]]).
Proof. vm_compute. reflexivity. Qed.
Example t_fn : type_ (t "void (i8*)*") = Done [] (TPtr (TFn [TPtr (I 8)] None)).
Proof. vm_compute. reflexivity. Qed.
Example t_fn2 : type_ (t "i8 (i8)*") = Done [] (TPtr (TFn [I 8] (Some (I 8)))).
Proof. vm_compute. reflexivity. Qed.
Example t_fn3 : type_ (t "void ()**") = Done [] (TPtr (TPtr (TFn [] None))).
Proof. vm_compute. reflexivity. Qed.
Example t_vec : type_ (t "<4 x i32>") = Done [] (TVec 4 (I 32)).
Proof. vm_compute. reflexivity. Qed.

Example t_ialias : item_ (t "@__pre_init = unnamed_addr alias void (), void ()* @DefaultPreInit")
  = Done [] (IAlias (t "__pre_init") (t "DefaultPreInit")).
Proof. vm_compute. reflexivity. Qed.
Example t_declare : item_ (t "declare noalias i8* @malloc(i64) unnamed_addr #3")
  = Done [] (IDeclare (t "malloc") (Some {| inputs := [I 64]; output := Some (TPtr (I 8)) |})).
Proof. vm_compute. reflexivity. Qed.
Example t_global : item_ (t "@0 = private constant <{ [0 x i8] }> zeroinitializer, align 4, !dbg !0") = Done [] IGlobal.
Proof. vm_compute. reflexivity. Qed.
Example t_global2 : item_ (t "@DEVICE_PERIPHERALS = local_unnamed_addr global <{ [1 x i8] }> zeroinitializer, align 1, !dbg !175")
  = Done [] IGlobal.
Proof. vm_compute. reflexivity. Qed.
Example t_masm : item_ (t "module asm '            .section .llvmbc,\22e\22'") = Done [] IModuleAsm.
Proof. vm_compute. reflexivity. Qed.
Example t_type : item_ (t "%'blue_pill::ItmLogger' = type {}") = Done [] IType /\ item_ (t "%0 = type { i32, { i8*, i8* } }") = Done [] IType.
Proof. split; vm_compute; reflexivity. Qed.

Example t_arg : argument (t "[0 x i8]* noalias nonnull readonly align 1 bitcast (<{ [11 x i8] }>* @anon.f060a8fe91113516c6f72b45ea256765.59 to [0 x i8]*)")
  = Done [] (TPtr (TArray 0 (I 8))).
Proof. vm_compute. reflexivity. Qed.
Example t_arg2 : argument (t "{}* nonnull align 1 %3") = Done [] (TPtr (TStruct [])).
Proof. vm_compute. reflexivity. Qed.
Example t_asm : stmt_ (t "  tail call i32 asm sideeffect 'mrs $0, BASEPRI', '=r'() #5, !dbg !1270, !srcloc !1280")
  = Done [] (Asm (t "mrs $0, BASEPRI")).
Proof. vm_compute. reflexivity. Qed.
Example t_assign : stmt_ (t "  %0 = tail call nonnull i32 (i32)* @foo(), !dbg !1200") = Done [] (DirectCall (t "foo")).
Proof. vm_compute. reflexivity. Qed.
Example t_assign2 : stmt_ (t "  %113 = call zeroext i1 %112({}* nonnull align 1 %109, [0 x i8]* noalias nonnull readonly align 1 %., i32 %.9) #10, !dbg !30714, !noalias !30727")
  = Done [] (IndirectCall {| inputs := [TPtr (TStruct []); TPtr (TArray 0 (I 8)); I 32]; output := Some (I 1) |}).
Proof. vm_compute. reflexivity. Qed.
Example t_bcall : stmt_ (t "  tail call fastcc i32 bitcast (i8* @__sbss to i32 ()*)() #6, !dbg !1177")
  = Done [] (BitcastCall (Some (t "__sbss"))).
Proof. vm_compute. reflexivity. Qed.
Example t_dcall : stmt_ (t "  call void @llvm.dbg.value(metadata %'blue_pill::ItmLogger'* %0, metadata !2111, metadata !DIExpression()), !dbg !2115")
  = Done [] (DirectCall (t "llvm.dbg.value")).
Proof. vm_compute. reflexivity. Qed.
Example t_dcall2 : stmt_ (t "  call i32 (i32, i64, ...) @ioctl(i32 %175, i64 1074295912, i64* nonnull %152) #10, !noalias !5657")
  = Done [] (DirectCall (t "ioctl")).
Proof. vm_compute. reflexivity. Qed.
Example t_icall : stmt_ (t "  call void %125({}* nonnull align 1 %_17.0.i.i.i.i.i, i32* nonnull align 4 dereferenceable(180) bitcast (i8* getelementptr inbounds (<{ [228 x i8] }>, <{ [228 x i8] }>* @_ZN17at28c_rs_firmware3APP7usb_dev17h0475a05cee83d665E, i32 0, i32 0, i32 44) to i32*), i16* noalias nonnull readonly align 2 dereferenceable(10) %121) #13, !dbg !14831, !noalias !13140")
  = Done [] (IndirectCall {| inputs := [TPtr (TStruct []); TPtr (I 32); TPtr (I 16)]; output := None |}).
Proof. vm_compute. reflexivity. Qed.
Example t_icall2 : stmt_ (t "  tail call void %10(ptr noundef nonnull align 1 %0, i8 -126), !noalias !51875")
  = Done [] (IndirectCall {| inputs := [TOpaque; I 8]; output := None |}).
Proof. vm_compute. reflexivity. Qed.
Example t_icall3 : stmt_ (t "  call noundef i8 %1105(i1 noundef zeroext false) #30, !dbg !66716, !range !53217, !noalias !66298")
  = Done [] (IndirectCall {| inputs := [I 1]; output := Some (I 8) |}).
Proof. vm_compute. reflexivity. Qed.
Example t_gh58 : stmt_ (t "  tail call void %f()") = Done [] (IndirectCall {| inputs := []; output := None |}).
Proof. vm_compute. reflexivity. Qed.
Example t_label : stmt_ (t "'payload_mut.exit.i.i': ; preds = %bb3.i96.i") = Done [] Label /\ stmt_ (t "bb3.i96.i: ; preds = %bb37.i") = Done [] Label.
Proof. split; vm_compute; reflexivity. Qed.
Example t_other : stmt_ (t "  ret void, !dbg !1377") = Done [] Other.
Proof. vm_compute. reflexivity. Qed.
Example t_param : parameter (t "%'jnet::mac::Addr'* noalias nocapture readonly dereferenceable(6) %value") = Done [] (TPtr (TAlias (t "jnet::mac::Addr"))).
Proof. vm_compute. reflexivity. Qed.
Example t_param2 : parameter (t "ptr noalias nocapture noundef writeonly sret({ i128, i8 }) dereferenceable(24) %0") = Done [] TOpaque.
Proof. vm_compute. reflexivity. Qed.

(** define/parse1.ll and define/parse4.ll in one module. *)
Definition module1 : str :=
  t "define internal void @_ZN4core3ptr18real_drop_in_place17h10d0d6d6b26fb8afE(%'blue_pill::ItmLogger'* nocapture nonnull align 1) unnamed_addr #0 !dbg !2105 {" ++ nl ++
  t "start:" ++ nl ++ t "  ret void" ++ nl ++ t "}" ++ nl ++ nl ++
  t "define void ()** @foo() unnamed_addr #0 {" ++ nl ++ t "start:" ++ nl ++ t "  ret void" ++ nl ++ t "}" ++ nl.
Example t_module : parse module1 = Parsed
  [IDefine {| d_name := t "_ZN4core3ptr18real_drop_in_place17h10d0d6d6b26fb8afE";
              d_sig := {| inputs := [TPtr (TAlias (t "blue_pill::ItmLogger"))]; output := None |};
              d_stmts := [Label; Other] |};
   IDefine {| d_name := t "foo"; d_sig := {| inputs := []; output := Some (TPtr (TPtr (TFn [] None))) |};
              d_stmts := [Label; Other] |}].
Proof. vm_compute. reflexivity. Qed.
