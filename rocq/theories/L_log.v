(** Logging does not change what is computed. *)
From Verif Require Import M_base M_stack M_graph M_analysis M_filter M_names M_thumb M_ty M_parse M_build M_run M_log.

Lemma snd_lbind {A B} (x : lg A) (f : A -> lg B) : snd (lg* y := x in f y) = let* y := snd x in snd (f y).
Proof. unfold lbind. now destruct (snd x). Qed.
Lemma bind_ext {A B} (x : outcome A) (f g : A -> outcome B) : (forall a, f a = g a) -> (let* y := x in f y) = let* y := x in g y.
Proof. intros H. destruct x; cbn; [apply H|reflexivity..]. Qed.
Lemma bind_assoc {A B C} (x : outcome A) (f : A -> outcome B) (g : B -> outcome C) : (let* y := (let* z := x in f z) in g y) = let* z := x in let* y := f z in g y.
Proof. now destruct x. Qed.
Lemma lfold_snd {S T X} (F : S -> X -> lg S) (f : T -> X -> outcome T) (h : S -> T) l :
  (forall s x, (let* s' := snd (F s x) in Ret (h s')) = f (h s) x) -> forall s, (let* s' := snd (lfold F l s) in Ret (h s')) = ofold f l (h s).
Proof.
  intros H. induction l as [|x l IH]; intros s; [reflexivity|]. cbn [lfold ofold]. rewrite snd_lbind, bind_assoc, <- H, bind_assoc. apply bind_ext. intros a. cbn [bind]. apply IH.
Qed.
Lemma bind_id {A} (x : outcome A) : (let* y := x in Ret y) = x.
Proof. now destruct x. Qed.
Lemma lfold_same {S X} (F : S -> X -> lg S) (f : S -> X -> outcome S) l : (forall s x, snd (F s x) = f s x) -> forall s, snd (lfold F l s) = ofold f l s.
Proof.
  intros H s. pose proof (lfold_snd F f (fun s => s) l) as K. rewrite <- K; [symmetry; apply bind_id|]. intros s' x. rewrite bind_id. apply H.
Qed.

Lemma add_real_erase demangle p s x : snd (add_real_log demangle p s x) = add_real demangle p s x.
Proof.
  unfold add_real_log, add_real. cbv zeta. rewrite snd_lbind. cbn [snd quiet]. apply bind_ext. intros c. rewrite snd_lbind.
  destruct (sget (pg_sizes p) c) as [k|]; [|rewrite snd_lbind; destruct (negb (is_thumb (pg_target p)))]; cbn [snd lret log bind];
    rewrite snd_lbind; cbn [snd quiet]; apply bind_ext; intros am; cbn [add_node];
    (destruct (def_of (pg_defines p) (untagged (snd x))); [reflexivity|]; destruct (decl_of (pg_declares p) (untagged (snd x))); [reflexivity|]; now destruct (is_outlined_function c)).
Qed.
Lemma real_erase demangle p : snd (real_nodes_log demangle p) = real_nodes demangle p.
Proof. apply lfold_same. apply add_real_erase. Qed.
Lemma taken_skip t f : taken_for_code t f = true -> classify t f = CSkip.
Proof.
  unfold taken_for_code, classify. destruct (smem f _); [discriminate|]. destruct (starts_with _ f || starts_with _ f); [discriminate|]. destruct (t && _); [discriminate|].
  destruct (starts_with _ f); [discriminate|]. destruct (starts_with _ f || starts_with _ f); [discriminate|]. intros ->. reflexivity.
Qed.
Lemma stmt_erase p aliases c caller x st : (let* x' := snd (exec_stmt_log p aliases c caller x st) in Ret (fst x')) = exec_stmt p aliases c caller (fst x) st.
Proof.
  destruct x as [s seen]. cbn [fst]. destruct st as [expr|name|f|sg| | |]; unfold exec_stmt_log; cbv zeta; try (rewrite snd_lbind; cbn [snd quiet lret]; rewrite bind_assoc; cbn [bind fst]; apply bind_id).
  - rewrite snd_lbind. cbn [exec_stmt]. destruct (smem c (e_asm s)); reflexivity.
  - destruct name as [sym|]; [|reflexivity]. rewrite snd_lbind. cbn [exec_stmt]. destruct (sget (e_indices s) sym); [reflexivity|]. rewrite snd_lbind. cbn [snd log bind lret].
    destruct (add_unknown sym s). reflexivity.
  - destruct (taken_for_code (is_thumb (pg_target p)) f) eqn:L.
    + cbn [exec_stmt]. rewrite (taken_skip _ _ L). destruct (negb (smem f seen)); reflexivity.
    + rewrite snd_lbind. cbn [snd quiet lret]. rewrite bind_assoc. cbn [bind fst]. apply bind_id.
Qed.

Lemma define_erase p aliases x d : (let* x' := snd (exec_define_log p aliases x d) in Ret (fst x')) = exec_define p aliases (fst x) d.
Proof.
  destruct x as [s seen]. unfold exec_define_log, exec_define. cbn [fst]. destruct (sget aliases (d_name d)) as [c|]; [|reflexivity]. cbv zeta. cbn [e_indices].
  destruct (sget (e_indices s) c) as [caller|]; [|reflexivity].
  exact (lfold_snd (exec_stmt_log p aliases c caller) (exec_stmt p aliases c caller) fst (d_stmts d) (stmt_erase p aliases c caller) (_, seen)).
Qed.
Lemma ir_erase p n : snd (ir_edges_log p n) = ir_edges p n.
Proof.
  unfold ir_edges_log, ir_edges. rewrite snd_lbind. set (e0 := mkEdges _ _ _ _ _ _). change e0 with (fst (e0, @nil str)) at 2.
  rewrite <- (lfold_snd (exec_define_log p (n_aliases n)) (exec_define p (n_aliases n)) fst (map snd (pg_defines p)) (define_erase p (n_aliases n)) (e0, [])).
  apply bind_ext. intros [e seen]. reflexivity.
Qed.
Lemma settle_erase name asm out local a : snd (settle_log name asm out local a) = settle_local asm out local a.
Proof.
  unfold settle_log, settle_local. rewrite snd_lbind. cbn [snd quiet].
  destruct (stack a) as [k|].
  - destruct (Bool.eqb (negb (k =? 0)%N) (modifies_sp a)); [|reflexivity]. cbn [snd lret bind]. rewrite snd_lbind. destruct local as [m|].
    + rewrite snd_lbind. destruct (negb (m =? k)%N && asm); [|destruct out; [destruct ((m =? 0)%N && negb (k =? m)%N) | destruct (m =? k)%N]].
      all: cbn [snd lret quiet bind overrides log lbind]; try reflexivity.
      all: match goal with |- context [Bool.eqb ?x ?y] => destruct (Bool.eqb x y) end; reflexivity.
    + reflexivity.
  - cbn [snd lret bind]. rewrite snd_lbind. destruct local as [m|].
    + rewrite snd_lbind. cbn [snd lret bind]. destruct (Bool.eqb (negb (m =? 0)%N) (modifies_sp a)); reflexivity.
    + destruct (negb (modifies_sp a)); reflexivity.
Qed.
Lemma code_erase p n e stext text x s : snd (exec_code_log p n e stext text x s) = exec_code p n e stext text x s.
Proof.
  unfold exec_code_log, exec_code. cbv zeta. destruct (sy_names (snd s)) as [|name ns]; [reflexivity|]. destruct (sget (n_aliases n) name) as [c|]; [|reflexivity].
  rewrite snd_lbind. cbn [snd quiet]. apply bind_ext. intros size. rewrite snd_lbind. cbn [snd quiet]. apply bind_ext. intros code. rewrite snd_lbind. cbn [snd quiet]. apply bind_ext. intros a.
  destruct (sget (e_indices e) c) as [caller|]; [|reflexivity]. destruct x as [g seen]. rewrite snd_lbind. cbn [snd quiet]. apply bind_ext. intros l.
  rewrite snd_lbind, settle_erase. apply bind_ext. intros l'. rewrite snd_lbind. destruct (negb (smem c (e_defined e)) && indirect a).
  - rewrite snd_lbind. cbn [snd log bind add_node lret]. rewrite snd_lbind. cbn [snd quiet]. apply bind_ext. intros y. reflexivity.
  - cbn [snd lret bind]. rewrite snd_lbind. cbn [snd quiet]. apply bind_ext. intros y. reflexivity.
Qed.
Lemma machine_erase p n e : snd (machine_edges_log p n e) = machine_edges p n e.
Proof.
  unfold machine_edges_log, machine_edges. destruct (is_thumb (pg_target p)); [|reflexivity]. destruct (pg_text p) as [[stext text]|]; [|reflexivity].
  rewrite snd_lbind. rewrite (lfold_same _ (exec_code p n e (stext mod 2 ^ 32) text)); [|apply code_erase]. apply bind_ext. intros [g seen]. reflexivity.
Qed.
Lemma lfold_pure {S X} (F : S -> X -> lg S) (f : S -> X -> S) l : (forall s x, snd (F s x) = Ret (f s x)) -> forall s, snd (lfold F l s) = Ret (fold_left f l s).
Proof. intros H. induction l as [|x l IH]; intros s; [reflexivity|]. cbn [lfold fold_left]. rewrite snd_lbind, H. cbn [bind]. apply IH. Qed.
Lemma indirect_erase1 o unt fmts void g e : snd (add_indirect_log o unt fmts void g e) = Ret (add_indirect o unt fmts void g e).
Proof.
  destruct e as [sig ind]. unfold add_indirect_log, add_indirect. destruct (negb (ic_called ind)); [reflexivity|]. rewrite snd_lbind.
  destruct (special_fmt void sig); [rewrite snd_lbind; destruct (is_nil fmts)|]; cbn [snd lret log no_callees bind add_node]; rewrite snd_lbind; (destruct unt; [reflexivity|]; rewrite snd_lbind);
    match goal with |- context [is_nil ?x] => destruct (is_nil x) end; reflexivity.
Qed.
Lemma indirect_erase o unt fmts m g : snd (indirect_edges_log o unt fmts m g) = Ret (indirect_edges o unt fmts m g).
Proof.
  unfold indirect_edges_log, indirect_edges. rewrite snd_lbind. destruct unt; cbn [snd log lret bind]; apply lfold_pure; intros; apply indirect_erase1.
Qed.
Theorem build_erase demangle o p : snd (build_log demangle o p) = build demangle o p.
Proof.
  unfold build_log, build. rewrite snd_lbind. cbn [snd quiet]. apply bind_ext. intros _. rewrite snd_lbind, real_erase. apply bind_ext. intros n. rewrite snd_lbind, ir_erase. apply bind_ext. intros e.
  rewrite snd_lbind, machine_erase. apply bind_ext. intros g. rewrite snd_lbind, indirect_erase. reflexivity.
Qed.
Lemma resolve_erase demangle indices s : snd (resolve_start_log demangle indices s) = Ret (resolve_start demangle indices s).
Proof. unfold resolve_start_log, resolve_start. destruct (sget indices s); [reflexivity|]. cbv zeta. destruct (filter _ indices) as [|[k i] [|h hits]]; reflexivity. Qed.
Lemma filter_erase demangle indices start g : snd (filter_start_log demangle indices start g) = filter_start demangle indices start g.
Proof.
  unfold filter_start_log, filter_start. destruct start as [s|]; [|reflexivity]. rewrite snd_lbind, resolve_erase. cbn [bind]. now destruct (resolve_start demangle indices s).
Qed.
Lemma max_erase info g : snd (max_stack_log info g) = max_stack info g.
Proof. unfold max_stack_log, max_stack. now destruct (negb info) eqn:E. Qed.
Theorem report_erase demangle o start p : snd (report_log demangle o start p) = report demangle o start p.
Proof.
  unfold report_log, report, finish. rewrite snd_lbind, build_erase. apply bind_ext. intros b. rewrite snd_lbind, filter_erase. apply bind_ext. intros g.
  rewrite snd_lbind, max_erase. apply bind_ext. intros [g' cycles]. rewrite snd_lbind. cbn [snd quiet]. apply bind_ext. reflexivity.
Qed.
