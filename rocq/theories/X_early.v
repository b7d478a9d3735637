(** Examples for runs that end before the build. *)
From Verif Require Import M_base M_names M_render M_build M_run M_wrapper M_driver S_driver S_early X_build L_driver1 L_driver3 L_driver4 L_driver5 X_driver.
Local Open Scope string_scope.
Local Open Scope list_scope.

(** Neither `--example` nor `--bin`; both of them; a toolchain that is not supported. *)
Definition none_w : world := ex_world (mkArgs None None None None false false Dot None) None good None ex_stderr (Some 0%Z).
Definition both_w : world := ex_world (mkArgs None (Some (lit "b")) (Some (lit "a")) None false false Dot None) None good None ex_stderr (Some 0%Z).
Definition old_w : world := ex_world ex_args None (Some (lit "0123")) None ex_stderr (Some 0%Z).
Definition specify : str := lit "Please specify either --example <NAME> or --bin <NAME>.".
Lemma none_stops : w_wrapper none_w = false /\ obstacle none_w specify /\ main idd none_w = ([EErr (lit "error: " ++ specify)], 1%Z).
Proof. split; [reflexivity|]. split; [|vm_compute; reflexivity]. apply ob_artifact; [reflexivity | left; reflexivity | intros f [[E _]|[_ E]]; discriminate E]. Qed.
Lemma both_stops : w_wrapper both_w = false /\ obstacle both_w specify /\ main idd both_w = ([EErr (lit "error: " ++ specify)], 1%Z).
Proof. split; [reflexivity|]. split; [|vm_compute; reflexivity]. apply ob_artifact; [reflexivity | left; reflexivity | intros f [[_ E]|[E _]]; discriminate E]. Qed.
Lemma old_stops : w_wrapper old_w = false /\ exists t, main idd old_w = (t, 1%Z) /\ forall a, ~ In (lit "cargo", a) (commands t).
Proof. split; [reflexivity|]. eexists. split; [vm_compute; reflexivity|]. intros a []. Qed.
