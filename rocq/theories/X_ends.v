(** Examples for how runs end. *)
From Verif Require Import M_base M_names M_render M_build M_run M_wrapper M_driver S_driver S_ends X_build L_driver1 L_driver2 L_driver3 L_driver4 L_driver5 X_driver L_ends.
Local Open Scope string_scope.
Local Open Scope list_scope.

(** A build without compiler_builtins; one that fails; one that is killed. *)
Definition bare_w : world := ex_world ex_args None good None (lit "   Compiling app" ++ nl) (Some 0%Z).
Definition failed_w : world := ex_world ex_args None good None (lit "error: no" ++ nl) (Some 101%Z).
Definition killed_w : world := ex_world ex_args None good None (lit "   Compiling app" ++ nl) None.
Lemma bare_ends : sane bare_w /\ exists t, main idd bare_w = (t, 101%Z) /\ printed t = [] /\ (exists command, In (lit "cargo", command) (commands t)) /\ exists m, errors t = [lit "   Compiling app"; m].
Proof. split; [apply ex_sane|]. eexists. split; [vm_compute; reflexivity|]. split; [reflexivity|]. split; [eexists; right; left; reflexivity | eexists; reflexivity]. Qed.
Lemma failed_ends : sane failed_w /\ exists t, main idd failed_w = (t, 101%Z) /\ errors t = [lit "error: no"].
Proof. split; [apply ex_sane|]. eexists. split; [vm_compute; reflexivity | reflexivity]. Qed.
Lemma killed_ends : sane killed_w /\ exists t, main idd killed_w = (t, 1%Z) /\ errors t = [lit "   Compiling app"].
Proof. split; [apply ex_sane|]. eexists. split; [vm_compute; reflexivity | reflexivity]. Qed.
(** What is said of them. *)
Lemma bare_class target file : ends idd bare_w [] target file [lit "   Compiling app"] Crash [] 101.
Proof.
  pose (ls := [lit "   Compiling app"]). apply (en_unlinked idd bare_w [] target file ls [NText (lit "   Compiling app")]).
  - exists (lit "   Compiling app" ++ nl). split; [reflexivity|]. split; [apply lo_lf; [cbn; intuition discriminate | intros r E; apply (f_equal (@rev _)) in E; rewrite rev_app_distr in E; discriminate E | constructor]|].
    repeat constructor; intros p E; discriminate E.
  - intros l _. reflexivity.
  - left. intros n [<-|[]]. reflexivity.
Qed.
