(** Examples for maxima below start points and in printed files. *)
From Verif Require Import M_base M_stack M_graph M_names M_thumb M_ty M_parse M_render M_build M_run M_wrapper M_driver S_names S_graph S_render S_sig S_build S_run S_driver S_same S_part S_below S_more
  L_base L_build1 L_build8 L_run L_run2 L_below L_below2 X_build X_driver X_total X_same X_finite X_part X_below L_more X_more.
Local Open Scope string_scope.
Local Open Scope list_scope.

(** `main` of a program, below the start point `main` of a program that has one function more. *)
Lemma r_start : wf_prog p_low /\ wf_prog r_low /\ sizes_u64 p_low /\ sizes_u64 r_low /\ one_void p_low /\ same_below p_low r_low (shifted []) (reaches p_low 0) /\
  settled p_low (reaches p_low 0) /\ settled r_low (fun y => exists j, reaches p_low 0 j /\ y = shifted [] j) /\
  (exists g cs, report idd o_id None p_low = Ret (g, cs) /\ length (gnodes g) = 4 /\ reported g 0 (MExact 24)) /\
  exists g cs, report idd o_rev (Some (lit "main")) r_low = Ret (g, cs) /\ length (gnodes g) = 3 /\ reported g 0 (MExact 24).
Proof.
  destruct r_example as [W [W' [Sz [Sz' [Ov [_ [St [St' _]]]]]]]]. repeat (split; [assumption|]). split; [exact (proj1 r_below)|]. split; [exact St|]. split; [exact St'|].
  split; eexists; eexists; (split; [vm_compute; reflexivity|]); (split; [reflexivity|]); eexists; split; reflexivity.
Qed.
Lemma more_start_example : wf_prog (low [] 100) /\ wf_prog q_more /\ sizes_u64 (low [] 100) /\ sizes_u64 q_more /\ one_void (low [] 100) /\ fits q_more /\ settled (low [] 100) (reaches (low [] 100) 0) /\
  at_most (low [] 100) q_more (fun j => j) (reaches (low [] 100) 0) /\
  (exists g cs, report idd o_id (Some (lit "main")) (low [] 100) = Ret (g, cs) /\ length (gnodes g) = 3 /\ reported g 0 (MExact 24)) /\
  exists g cs, report idd o_rev None q_more = Ret (g, cs) /\ reported g 0 (MExact 148).
Proof.
  destruct more_example as [W [W' [Ov [Ft [St [Xt [_ R]]]]]]]. split; [exact W|]. split; [exact W'|]. split; [apply low_sizes; reflexivity|]. split; [intros n c I; cbn in I; each I; injection I as <- <-; reflexivity|].
  split; [exact Ov|]. split; [exact Ft|]. split; [exact St|]. split; [apply extended_most; exact Xt|]. split; [|exact R].
  eexists; eexists; (split; [vm_compute; reflexivity|]); (split; [reflexivity|]); eexists; split; reflexivity.
Qed.

(** The runs of [ex_w], without and with a start point. *)
Lemma below_refl p R : same_below p p (fun j => j) R.
Proof.
  constructor; try reflexivity; try (intros; assumption).
  - intros j y _. split; [intros X; exists y; split; [exact X | reflexivity] | intros [k [X ->]]; exact X].
  - intros j n y _ _. split; [intros X; exists y; split; [exact X | reflexivity] | intros [k [X ->]]; exact X].
  - intros j st n y _ _ _. split; [intros X; exists y; split; [exact X | reflexivity] | intros [k [X ->]]; exact X].
  - intros j s s' y _ _ _. split; [intros X; exists y; split; [exact X | reflexivity] | intros [k [X ->]]; exact X].
  - intros j v s' r y _ _ _. split; [intros X; exists y; split; [exact X | reflexivity] | intros [k [X ->]]; exact X].
Qed.
Lemma most_refl p R : at_most p p (fun j => j) R.
Proof. constructor; try reflexivity; try (intros; assumption); try (intros; eauto; fail). intros j c _ U. exists c. split; [exact U | lia]. Qed.
Lemma ex_calm R : settled ex_p R.
Proof.
  intros j f _ B. apply body_in in B. destruct B as [m [d [I J]]]. cbn in I. each I; injection I as <- <-; cbn in J; each J; try discriminate J; injection J as <-; (split; [discriminate|]); intros n Lo; inversion Lo; discriminate.
Qed.
Lemma runs_example : sane (started None ex_w) /\ sane (started (Some (lit "leaf")) ex_w) /\
  (exists t t', main idd (started None ex_w) = (t, 0%Z) /\ main idd (started (Some (lit "leaf")) ex_w) = (t', 0%Z) /\ printed t <> printed t') /\
  a_format (w_args (started None ex_w)) = Dot /\ sizes_u64 ex_p /\ one_void ex_p /\ fits ex_p /\ settled ex_p (reaches ex_p 1) /\ same_below ex_p ex_p (fun j => j) (reaches ex_p 1) /\ at_most ex_p ex_p (fun j => j) (reaches ex_p 1).
Proof.
  split; [apply ex_sane|]. split; [apply ex_sane|]. destruct started_runs as [_ [_ [t [t' [A [B [C _]]]]]]]. split; [exists t, t'; split; [exact A|]; split; [exact B | exact C]|]. split; [reflexivity|].
  destruct ex_ordered as [_ [Ov Sz]]. split; [exact Sz|]. split; [exact Ov|]. split; [exact ex_fits|]. split; [apply ex_calm|]. split; [apply below_refl | apply most_refl].
Qed.
