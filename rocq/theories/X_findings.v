(** Behaviour of the code found on the way (DESIGN.md) that no property theorem mentions. *)
From Verif Require Import M_base M_stack M_graph M_names M_thumb M_nom M_ty M_parse M_build M_driver S_names S_build X_build.
Open Scope string_scope.

(** ** LLVM IR *)
Definition newline : string := String "010" "".
(** A module with one function that contains the statement [s]. *)
Definition module_with (s : string) : str :=
  lit ("define void @g() {" ++ newline ++ "start:" ++ newline ++ s ++ newline ++ "  ret void" ++ newline ++ "}" ++ newline).
(** These statements are not read; the error message names the first line of the definition. *)
Example rejected : Forall (fun s => parse (module_with s) = Failed 1)
  ["  musttail call void @f()"; "  notail call void @f()"; "  %5 = musttail call i32 @f(i32 1)";
   "  call void %f.1(i32 poison)"; "  call void %f.1(float 0x36A0000000000000)"; "  %5 = call i32 %""a b""(i32 1)"]%list.
Proof. repeat apply Forall_cons; try apply Forall_nil; vm_compute; reflexivity. Qed.
(** The arguments of direct calls are not looked at. *)
Example accepted : exists d, parse (module_with "  call void @f(i32 poison, float 1.000000e+00)") = Parsed [IDefine d].
Proof. eexists. vm_compute. reflexivity. Qed.

(** ** Machine code *)
Open Scope list_scope.
(** Two data tags in sequence (a pool that the assembler marked twice) stop the tool. *)
Example two_data_tags : exists m, analyze (map ascii_of_N [0x70; 0x47; 0; 0; 0; 0; 0; 0]%N) 256 true [(256%N, TThumb); (258%N, TData); (262%N, TData)] = Panic m.
Proof. eexists. vm_compute. reflexivity. Qed.

(** ** Symbols *)
(** An address at which there are mapping symbols only stops the tool. *)
Example only_tags : exists m, build idd o_id (mkProg OtherTarget [] [] [] [at_ 4096 ["$a"; "$a.1"]%string] [] [] None) = Panic m.
Proof. eexists. vm_compute. reflexivity. Qed.
(** Clearing the thumb bit may merge two symbols: the names of the even address are lost. *)
Example thumb_bit_merge : clear_thumb Thumbv7m [at_ 4096 ["data"]%string; at_ 4097 ["f"]%string] = [at_ 4096 ["f"]%string].
Proof. vm_compute. reflexivity. Qed.

(** ** Files *)
(** Two IR files with the same modification time: the first in the directory is taken. *)
Example mtime_tie : let file n := Ret (mkEntry (lit n) true (Ret 7%N)) in
  pick_ll (lit "app-") [file "app-1.ll"; file "app-2.ll"]%string None = Ret (Some (lit "app-1.ll", 7%N)) /\
  pick_ll (lit "app-") [file "app-2.ll"; file "app-1.ll"]%string None = Ret (Some (lit "app-2.ll", 7%N)).
Proof. vm_compute. split; reflexivity. Qed.
(** A line of cargo's messages that is not UTF-8 stops the tool. *)
Example not_utf8 : exists m, snd (read_stderr (fun s => negb (existsb (Ascii.eqb "255") s)) (buf_lines (lit "warning: " ++ ["255"%char; "010"%char])) None None) = Fail m.
Proof. eexists. vm_compute. reflexivity. Qed.
