(** Command lines in the example world of X_driver. *)
From Verif Require Import M_base M_names M_thumb M_parse M_build M_run M_log M_wrapper M_driver S_build S_run S_log S_driver X_build X_driver M_cli S_cli L_cli L_cli2.
Local Open Scope string_scope.
Local Open Scope list_scope.

Definition tool : str := lit "/bin/cargo-call-stack".
Definition ex_settings : list setting := [SVerbose; SBin (lit "my-app"); SFormat Top; SStart (lit "main")].
Definition ex_argv : list str := map lit ["-v"; "--bin=my-app"; "--format"; "top"; "--"; "main"].
Definition ex_read_args : args := mkArgs None (Some (lit "my-app")) None None false true Top (Some (lit "main")).
Lemma ex_line : line (fun _ => true) ex_settings ex_argv /\ once ex_settings /\ says ex_settings ex_read_args.
Proof.
  split; [|split].
  - apply (ln_rest _ [SVerbose; SBin (lit "my-app"); SFormat Top] [[lit "-v"]; [lit "--bin=my-app"]; [lit "--format"; lit "top"]]); [|reflexivity].
    constructor; [apply sp_v|]. constructor; [apply (sp_one _ (lit "bin")); now apply nm_bin|]. constructor; [|constructor]. apply (sp_two _ (lit "format")); [now apply nm_top|]. intros r E. discriminate E.
  - unfold once. cbn. repeat (constructor; [cbn; intuition discriminate|]). constructor.
  - constructor; cbn; try (intros v; split; [intros E; injection E as <-; auto 6 | intros K; repeat destruct K as [K|K]; try discriminate K; try (injection K as <-; reflexivity); destruct K]); try (intros v; split; [discriminate | intuition discriminate]); try (split; [discriminate | intuition discriminate]).
    + intros f K. repeat destruct K as [K|K]; try discriminate K; [injection K as <-; reflexivity | destruct K].
    + intros K. destruct (K Top). auto.
    + split; [auto | reflexivity].
Qed.
Lemma ex_reads argv : reads_options (with_argv ex_w argv).
Proof. constructor; [reflexivity | reflexivity|]. left. reflexivity. Qed.
(** The filtered run. *)
Lemma ex_filtered : exists t, launch idd (with_argv ex_w (tool :: ex_argv)) = (t, 0%Z) /\ printed t = [lit "24 MAX
Usage Function
16 main
8 leaf
"] /\ messages t = [].
Proof. eexists. split; [vm_compute; reflexivity|]. split; vm_compute; reflexivity. Qed.
(** The same through cargo. *)
Lemma ex_refused : launch idd (with_argv ex_w (via_cargo tool ex_argv)) = ([], 2%Z).
Proof. vm_compute. reflexivity. Qed.
(** Without a start point. *)
Definition ex_argv2 : list str := map lit ["--bin"; "my-app"].
Lemma ex_line2 : line (fun _ => true) [SBin (lit "my-app")] ex_argv2 /\ once [SBin (lit "my-app")].
Proof.
  split; [|unfold once; cbn; repeat constructor; intros []]. apply (ln_plain _ [SBin (lit "my-app")] [[lit "--bin"; lit "my-app"]]). constructor; [|constructor]. apply (sp_two _ (lit "bin")); [now apply nm_bin|]. intros r E. discriminate E.
Qed.
Lemma ex_unfiltered : exists t, launch idd (with_argv ex_w (via_cargo tool ex_argv2)) = (t, 0%Z) /\ printed t = [ex_out] /\ messages t = [start_missing] /\
  exists t', launch idd (with_argv ex_w (tool :: ex_argv2)) = (t', 0%Z) /\ printed t' = [ex_out] /\ messages t' = [].
Proof. eexists. split; [vm_compute; reflexivity|]. split; [vm_compute; reflexivity|]. split; [vm_compute; reflexivity|]. eexists. split; [vm_compute; reflexivity|]. split; vm_compute; reflexivity. Qed.
(** No program of this world has a function with the name of the subcommand. *)
Definition ex_calls (items : list item) : list str :=
  flat_map (fun it => match it with IDefine d => flat_map (fun st => match st with DirectCall f | BitcastCall (Some f) => [f] | _ => [] end) (d_stmts d) | _ => [] end) items.
Lemma ex_texts f text items : ex_read f = Ret text -> parse text = M_parse.Parsed items -> forall n, In n (ex_calls items) -> n = lit "leaf".
Proof.
  unfold ex_read. intros E P n I. repeat match type of E with (if ?c then _ else _) = _ => destruct c end; [| | | |discriminate E]; injection E as <-; vm_compute in P; try discriminate P; injection P as <-; vm_compute in I; repeat (destruct I as [I|I]); solve [destruct I | subst n; reflexivity].
Qed.
Lemma ex_names p m : (forall a s, In (a, s) (pg_defined p) -> In s (map snd [X_build.at_ 4096 ["main"]; X_build.at_ 4112 ["leaf"]; X_build.at_ 4128 ["memcpy"]])) ->
  (exists i, chosen p i m) -> In m (map lit ["main"; "leaf"; "memcpy"]).
Proof.
  intros D [i [ns [[[a s] [E ->]] C]]]. apply nth_error_In in E. apply D in E. assert (I : In m (real_names (a, s))) by (destruct C as [[x [y [-> _]]]|[_ [x [y [-> _]]]]]; apply in_or_app; right; now left).
  unfold real_names in I. apply filter_In in I. destruct I as [I _]. cbn [snd] in I. cbn in E. destruct E as [<-|[<-|[<-|[]]]]; cbn in I |- *; tauto.
Qed.
Lemma ex_no_sub a target file rlib ll p : analyses (with_args ex_w a) target file rlib ll p -> ~ quiet_start idd p (Some (lit "call-stack")).
Proof.
  intros [path exe_dir dir ll_path obj_path es name t text items btext bitems obj sizes ms more elf el _ _ _ _ _ _ _ _ [Et _] Ep [Eb _] Epb Hd _ _ _ _ _ _ _ Ee _ _ Ho Ht].
  assert (D : forall a s, In (a, s) (pg_defined p) -> In s (map snd [X_build.at_ 4096 ["main"]; X_build.at_ 4112 ["leaf"]; X_build.at_ 4128 ["memcpy"]])).
  { injection Ee as <-. intros a' s I. destruct (is_thumb (pg_target p)).
    - apply (proj1 (Ht eq_refl)) in I. destruct I as [x [a0 [y [E _]]]]. cbn [el_defined] in E. rewrite E, map_app. apply in_or_app. right. now left.
    - rewrite (Ho eq_refl) in I. exact (in_map snd _ _ I). }
  assert (C : forall i st n, body p i st -> st = DirectCall n \/ st = BitcastCall (Some n) -> n = lit "leaf").
  { intros i st n [m [d [I [_ Is]]]] E. apply Hd in I. destruct I as [_ [x [y [El _]]]]. assert (K : In n (ex_calls (items ++ bitems))).
    { rewrite El. unfold ex_calls. rewrite flat_map_app. apply in_or_app. right. cbn [flat_map]. apply in_or_app. left. apply in_flat_map. exists st. split; [exact Is|]. destruct E as [-> | ->]; now left. }
    unfold ex_calls in K. rewrite flat_map_app in K. apply in_app_or in K. destruct K as [K|K]; [exact (ex_texts _ _ _ Et Ep n K) | exact (ex_texts _ _ _ Eb Epb n K)]. }
  assert (N : forall m, shown_name p m -> In m (map lit ["main"; "leaf"; "memcpy"])).
  { intros m [H|[[i [B _]]|[i [B _]]]]; [exact (ex_names p m D H) | |]; (rewrite (C i _ m B); [right; now left | auto]). }
  intros Q. destruct (Q _ eq_refl) as [S|[n H]].
  - apply N in S. cbn in S. intuition discriminate.
  - destruct (proj2 (H n) eq_refl) as [S [r E]]. apply N in S. unfold idd in E. subst n. cbn in S. intuition discriminate.
Qed.
