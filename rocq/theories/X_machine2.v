(** An example world whose program is that of X_machine. *)
From Coq Require Import Permutation.
From Verif Require Import M_base M_stack M_graph M_names M_thumb M_ty M_parse M_render M_build M_run M_wrapper M_driver.
From Verif Require Import S_names S_graph S_render S_build S_run S_driver S_thumb S_machine X_build X_driver X_machine L_base L_build3.
Local Open Scope string_scope.
Local Open Scope list_scope.

Definition m_ll : str :=
  lit "define void @main() {" ++ nl ++ lit "start:" ++ nl ++ lit "  call void @foo(i32 3)" ++ nl ++ lit "  ret void" ++ nl ++ lit "}" ++ nl ++ nl ++
  lit "define void @foo(i32 %n) {" ++ nl ++ lit "start:" ++ nl ++ lit "  tail call void @bar()" ++ nl ++ lit "  ret void" ++ nl ++ lit "}" ++ nl ++ nl ++
  lit "declare void @bar()" ++ nl.
Definition m_args : args := mkArgs (Some (lit "thumbv7m-none-eabi")) (Some (lit "my-app")) None None false false Dot None.
Definition m_read (path : str) : outcome str :=
  if str_eqb path (lit "t/thumbv7m-none-eabi/release/deps/my_app-1f.ll") then Ret m_ll
  else if str_eqb path (lit "t/thumbv7m-none-eabi/release/deps/my_app-1f.o") then Ret (lit "OBJ")
  else if str_eqb path (lit "t/thumbv7m-none-eabi/release/my-app") then Ret (lit "ELF")
  else if str_eqb path (lit "t/compiler_builtins-3f.ll") then Ret (lit "source_filename = ""cb""" ++ nl)
  else Fail (lit "no such file").
Definition m_object (buf : str) : outcome (list (str * N)) :=
  if str_eqb buf (lit "OBJ") then Ret [(lit "main", 8%N); (lit "foo", 8%N)] else Ret [].
Definition m_w : world :=
  mkWorld false [] (fun _ _ => Fail []) good (lit "x86_64-unknown-linux-gnu") (Ret tt) None m_args (Ret None)
    (lit "/w") ex_cfg (Ret (lit "/bin/cargo-call-stack")) (fun _ => Ret tt) (fun _ => true) (fun _ => []) (fun _ => Ret (ex_stderr, Some 0%Z)) (fun _ => true) ex_path
    (fun _ => Ret [Ret (mkEntry (lit "my_app-1f.ll") true (Ret 5%N)); Ret (mkEntry (lit "my_app-1f.o") true (Ret 6%N))])
    m_read m_object
    (fun _ => Ret [Ret (mkMember (lit "compiler_builtins-3.o") true (Ret (lit "CB"))); Ret (mkMember (lit "lib.rmeta") true (Fail []))])
    (fun _ => Ret (mkElf (pg_defined m_p) []))
    (fun _ => Ret [(4096%N, lit "$t")]) (fun _ => pg_text m_p) (fun m => m) o_id (fun _ => None).

Lemma m_sane : sane m_w.
Proof.
  constructor; cbn.
  - reflexivity.
  - intros m. reflexivity.
  - exact o_id_fair.
  - intros elf s E. injection E as <-. split; [apply (nodupb_sound N.eqb); [apply N.eqb_refl | reflexivity] | apply (nodupb_sound str_eqb); [apply L_base.str_eqb_refl | vm_compute; reflexivity]].
Qed.
Definition m_out : str := lit "digraph {
    node [fontname=monospace shape=box]
    0 [label=""main\nmax = 16\nlocal = 8""]
    1 [label=""foo\nmax = 8\nlocal = 8""]
    2 [label=""bar\nmax = 0\nlocal = 0""]
    0 -> 1
    1 -> 2
}
".
Lemma m_main_run : exists t, main idd m_w = (t, 0%Z) /\ printed t = [m_out].
Proof. eexists. split; vm_compute; reflexivity. Qed.
Lemma m_load : load m_w (lit "thumbv7m-none-eabi") (lit "my-app") (lit "t/cb.rlib") (lit "t/compiler_builtins-3f.ll") = Ret m_p.
Proof. vm_compute. reflexivity. Qed.
Lemma m_names : forall g cycles nd, report idd o_id None m_p = Ret (g, cycles) -> In nd (gnodes g) -> no_backslash (nname nd).
Proof.
  intros g cycles nd E I. assert (X : exists x, report idd o_id None m_p = Ret x /\ forallb (fun nd => forallb (fun c => negb (Ascii.eqb c backslash)) (nname nd)) (gnodes (fst x)) = true).
  { eexists. split; vm_compute; reflexivity. }
  destruct X as [x [X1 X2]]. rewrite E in X1. injection X1 as <-. rewrite forallb_forall in X2. specialize (X2 nd I). intros K. rewrite forallb_forall in X2. specialize (X2 _ K). discriminate X2.
Qed.
