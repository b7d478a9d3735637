(** Examples for the printed text. *)
From Verif Require Import M_base M_stack M_graph M_names M_thumb M_ty M_parse M_render M_build M_run M_wrapper M_driver.
From Verif Require Import S_names S_graph S_render S_build S_run S_driver X_build X_driver L_base L_build3 L_build8.
Local Open Scope string_scope.
Local Open Scope list_scope.

Lemma ex_measured : measured ex_p.
Proof. exists 0, (lit "main"). split; [apply chosen_find; vm_compute; reflexivity | exists 16%N; left; reflexivity]. Qed.
Definition top_args : args := mkArgs None (Some (lit "my-app")) None None false false Top None.
Definition top_w : world := ex_world top_args None good None ex_stderr (Some 0%Z).
Definition top_out : str := lit "24 MAX
Usage Function
16 main
8 leaf
4 memcpy
".
Lemma top_run : exists t, main idd top_w = (t, 0%Z) /\ printed t = [top_out].
Proof. eexists. split; vm_compute; reflexivity. Qed.
Lemma ex_lines : forall g cycles nd, report idd o_rev None ex_p = Ret (g, cycles) -> In nd (gnodes g) -> one_line (nname nd).
Proof.
  intros g cycles nd E I. assert (X : exists x, report idd o_rev None ex_p = Ret x /\ forallb (fun nd => forallb (fun c => negb (Ascii.eqb c "010")) (nname nd)) (gnodes (fst x)) = true).
  { eexists. split; vm_compute; reflexivity. }
  destruct X as [x [X1 X2]]. rewrite E in X1. injection X1 as <-. rewrite forallb_forall in X2. specialize (X2 nd I). intros K. rewrite forallb_forall in X2. specialize (X2 _ K). discriminate X2.
Qed.
