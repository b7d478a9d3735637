(** The runs of the compiler and of the driver in the example world of X_driver. *)
From Verif Require Import M_base M_names M_thumb M_parse M_build M_run M_wrapper M_driver S_build S_run S_driver S_pair L_driver1 X_build X_driver.
Local Open Scope string_scope.
Local Open Scope list_scope.

(** A build of three crates: the one that compiles compiler_builtins, one that does not need it, and the application. *)
Definition ex_compiles : list compile :=
  [mkCompile [OCrate (lit "compiler_builtins"); OOther; OOut (lit "t"); OExtra (lit "-3f")]
     [map lit ["--crate-name"; "compiler_builtins"]; [lit "lib.rs"]; map lit ["--out-dir"; "t"]; map lit ["-C"; "extra-filename=-3f"]];
   mkCompile [OCrate (lit "rand"); OOther] [map lit ["--crate-name"; "rand"]; [lit "rand.rs"]];
   mkCompile [OCrate (lit "my_app"); OExtern (lit "rand") (Some (lit "t/r.rlib")); OExtern (lit "compiler_builtins") (Some (lit "t/cb.rlib"))]
     [map lit ["--crate-name"; "my_app"]; map lit ["--extern"; "rand=t/r.rlib"]; map lit ["--extern"; "noprelude:compiler_builtins=t/cb.rlib"]]].

Lemma pair_example : sane ex_w /\ Forall works ex_compiles /\ Forall (passes (w_utf8 ex_w) (lit "tool") (lit "rustc")) ex_compiles /\ reported_by (w_utf8 ex_w) (lit "tool") (lit "rustc") ex_compiles (fun _ _ _ => Ret (Some 0%Z)) ex_notes /\ Forall note_ok ex_notes /\
  (exists t command, main idd ex_w = (t, 0%Z) /\ In (lit "cargo", command) (commands t) /\ w_cargo ex_w command = Ret (concat (map (fun n => note_line n ++ ["010"%char]) ex_notes), Some 0%Z)) /\
  latest links_builtins (concat (map cp_opts ex_compiles)) (Some (lit "t/cb.rlib")) /\ exists c, In c ex_compiles /\ compiles_builtins c (lit "t/compiler_builtins-3f.ll").
Proof.
  assert (L : forall A (f : A -> option str) l r, last_of f l None = r -> latest f l r) by (intros A f l r <-; apply last_of_latest).
  split; [apply ex_sane|]. split; [|split; [repeat constructor|]; split; [vm_compute; reflexivity|]; split; [exact ex_notes_ok|]; split; [|split; [apply L; vm_compute; reflexivity|]]].
  - repeat apply Forall_cons; [| | |constructor]; (constructor; [|eexists; apply L; reflexivity|]).
    + repeat apply Forall2_cons; [exact (wr_crate _) | apply wr_other | exact (wr_out _) | exact (wr_extra2 _) | constructor]; [cbn; intuition discriminate | intros r; discriminate].
    + intros _. exists (lit "t"). apply L. reflexivity.
    + repeat apply Forall2_cons; [exact (wr_crate _) | apply wr_other | constructor]; [cbn; intuition discriminate | intros r; discriminate].
    + intros K. apply (latest_unique _ _ _ _ (last_of_latest _ _)) in K. discriminate K.
    + repeat apply Forall2_cons; [exact (wr_crate _) | apply (wr_extern (lit "rand") (Some (lit "t/r.rlib"))) | apply (wr_noprelude (lit "compiler_builtins") (Some (lit "t/cb.rlib"))) | constructor]; cbn; try (intuition discriminate).
    + intros K. apply (latest_unique _ _ _ _ (last_of_latest _ _)) in K. discriminate K.
  - destruct ex_run as [t [H1 [_ [_ H2]]]]. exists t. eexists. split; [exact H1|]. split; [rewrite H2; right; left; reflexivity | reflexivity].
  - eexists. split; [left; reflexivity|]. split; [apply L; reflexivity|]. exists (lit "t"), (Some (lit "-3f")). split; [apply L; reflexivity|]. split; [apply L; reflexivity | reflexivity].
Qed.
