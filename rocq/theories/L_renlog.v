(** Programs that differ in the names of their functions: proofs about the log. *)
From Coq Require Import Sorted Permutation.
From Verif Require Import M_base M_stack M_graph M_analysis M_filter M_names M_thumb M_ty M_parse M_build M_run M_log S_names S_build S_log S_rename S_renlog.
From Verif Require Import L_base L_names L_build1 L_build2 L_rename L_rename2 L_rename3 L_log L_log2 L_literal L_log3.

Section Log.
Variables (demangle : str -> str) (p : prog) (r : str -> str) (start start' : option str).
Hypothesis inj : forall a b, r a = r b -> a = b.
Hypothesis fixed : forall n, In n known_names -> r n = n.
Hypothesis kp : kept demangle p r.
Hypothesis code : forall n, looked_at p n -> taken_for_code (is_thumb (pg_target p)) (r n) = taken_for_code (is_thumb (pg_target p)) n.
Hypothesis same : forall n, looked_at p n -> taken_for_code (is_thumb (pg_target p)) n = true -> r n = n.
Notation M := (looked_at p).
Notation rm := (renamed_message p r start start').

Definition lrel {A B} (R : A -> B -> Prop) (x : lg A) (y : lg B) : Prop := Forall2 rm (fst x) (fst y) /\ orel R (snd x) (snd y).
Lemma lrel_ret {A B} (R : A -> B -> Prop) a b : R a b -> lrel R (lret a) (lret b).
Proof. intros H. split; [constructor | exact H]. Qed.
Lemma lrel_quiet {A B} (R : A -> B -> Prop) x y : orel R x y -> lrel R (quiet x) (quiet y).
Proof. intros H. split; [constructor | exact H]. Qed.
Lemma lrel_log l l' t t' : rm (l, t) (l', t') -> lrel eq (log l t) (log l' t').
Proof. intros H. split; [constructor; [exact H | constructor] | reflexivity]. Qed.
Lemma lrel_bind {A B C D} (R : A -> B -> Prop) (Q : C -> D -> Prop) x y f g : lrel R x y -> (forall a b, R a b -> lrel Q (f a) (g b)) -> lrel Q (lbind x f) (lbind y g).
Proof.
  intros [L O] H. unfold lbind. destruct x as [lx x], y as [ly y]. cbn [fst snd] in *. destruct x as [a|m|m|], y as [b|n|n|]; cbn [orel] in O; try contradiction; [|split; assumption..].
  destruct (H a b O) as [L2 O2]. split; [apply Forall2_app; assumption | exact O2].
Qed.
Lemma lrel_fold {S S' X Y} (R : S -> S' -> Prop) (f : S -> X -> lg S) (f' : S' -> Y -> lg S') (h : X -> Y) l :
  (forall s s' x, In x l -> R s s' -> lrel R (f s x) (f' s' (h x))) -> forall s s', R s s' -> lrel R (lfold f l s) (lfold f' (map h l) s').
Proof.
  induction l as [|x l IH]; intros H s s' E; [apply lrel_ret; exact E|]. cbn [lfold map]. apply (lrel_bind R); [apply H; [left; reflexivity | exact E]|]. intros a b E'. apply IH; [intros ? ? ? I; apply H; right; exact I | exact E'].
Qed.
(** The messages and the results apart. *)
Definition anything {A B} (a : A) (b : B) : Prop := True.
Lemma lrel_both {A B} (R : A -> B -> Prop) x y : lrel anything x y -> orel R (snd x) (snd y) -> lrel R x y.
Proof. intros [L _] O. split; assumption. Qed.
Lemma lrel_any {A B} (R : A -> B -> Prop) x y : lrel R x y -> lrel anything x y.
Proof. intros [L O]. split; [exact L|]. destruct (snd x), (snd y); cbn in O |- *; try assumption; try contradiction. exact I. Qed.
Lemma lrel_tail {A B C D} (R : A -> B -> Prop) x y (f : A -> C) (g : B -> D) : lrel R x y -> lrel anything (lbind x (fun a => lret (f a))) (lbind y (fun b => lret (g b))).
Proof. intros H. apply (lrel_bind R); [exact H|]. intros a b _. apply lrel_ret. exact I. Qed.

(** * Real nodes *)
Lemma rm_quoted_usage n : M n -> rm (Warn, quoted (lit "no stack usage information for ") n []) (Warn, quoted (lit "no stack usage information for ") (r n) []).
Proof. intros H. rewrite !quoted_tick, !app_nil_r. exact (rm_usage p r start start' n H). Qed.
Lemma add_real_lr s s' x : In x (pg_defined p) -> nrel p r s s' -> lrel (nrel p r) (add_real_log demangle p s x) (add_real_log demangle (renamed r p) s' (fst x, ren_sym r (snd x))).
Proof.
  intros Ix R. apply lrel_both; [|rewrite !add_real_erase; apply add_real_r with (demangle := demangle); assumption]. destruct x as [a sym]. unfold add_real_log. cbn [fst snd renamed pg_sizes pg_defines pg_declares pg_target]. cbv zeta.
  destruct (untagged_r demangle p r kp sym) as [U V]; [intros n I; left; exists a, sym; split; assumption|]. rewrite U.
  apply (lrel_bind _ _ _ _ _ _ (lrel_quiet _ _ _ (canonical_r p r inj (untagged sym) V))). intros c c' [K ->].
  change (map (fun x => (r (fst x), snd x)) (pg_sizes p)) with (kmap r (pg_sizes p)). rewrite (sget_k r inj).
  apply (lrel_bind anything).
  { destruct (sget (pg_sizes p) c); [apply lrel_ret; exact I|]. apply (lrel_tail eq). destruct (negb _); [apply lrel_log, rm_quoted_usage; exact K | apply lrel_ret; reflexivity]. }
  intros i i' _. rewrite (nr_amb _ _ _ _ R), (note_r demangle p r kp _ _ K). apply (lrel_bind eq); [apply lrel_quiet, orel_eq; reflexivity|]. intros am _ <-. cbn [add_node].
  change (map (fun x => (r (fst x), ren_def r (snd x))) (pg_defines p)) with (dmap r (pg_defines p)). change (map (fun x => (r (fst x), snd x)) (pg_declares p)) with (kmap r (pg_declares p)).
  rewrite (def_of_r p r inj), (decl_of_r p r inj), (kt_outlined _ _ _ kp c K).
  destruct (def_of (pg_defines p) (untagged sym)) as [d|]; cbn [option_map]; [apply lrel_ret; exact I|]. destruct (decl_of (pg_declares p) (untagged sym)) as [sg|]; [apply lrel_ret; exact I|].
  destruct (negb _); [|apply lrel_ret; exact I]. apply (lrel_tail eq), lrel_log. rewrite !quoted_tick, !app_nil_r. exact (rm_type p r start start' c K).
Qed.
Lemma real_nodes_lr : lrel (nrel p r) (real_nodes_log demangle p) (real_nodes_log demangle (renamed r p)).
Proof.
  unfold real_nodes_log. cbn [renamed pg_defined]. apply lrel_fold; [intros s s' x I R; apply add_real_lr; assumption|].
  constructor; try reflexivity; [split; [constructor | reflexivity] | intros k v E; discriminate E | intros k []].
Qed.

(** * Calls in the LLVM IR *)
Definition lse (x y : edgest * list str) : Prop := erel p r (fst x) (fst y) /\ snd y = map r (snd x).
Lemma exec_stmt_lr al cn cl x y st : vals p al -> M cn -> (forall n, calls_name st n -> M n) -> lse x y ->
  lrel lse (exec_stmt_log p al cn cl x st) (exec_stmt_log (renamed r p) (amap r al) (r cn) cl y (ren_stmt r st)).
Proof.
  intros Va Kc Hc [R E]. destruct x as [s seen], y as [s' seen']. cbn [fst snd] in R, E. subst seen'.
  pose proof (exec_stmt_r demangle p r inj fixed kp al cn cl s s' st Va Hc R) as X.
  assert (Q : lrel lse (lg* s := quiet (exec_stmt p al cn cl s st) in lret (s, seen)) (lg* s := quiet (exec_stmt (renamed r p) (amap r al) (r cn) cl s' (ren_stmt r st)) in lret (s, map r seen))).
  { apply (lrel_bind (erel p r)); [apply lrel_quiet; exact X|]. intros a b A. apply lrel_ret. split; [exact A | reflexivity]. }
  destruct st as [e|[n|]|n|sg| | |]; cbn [ren_stmt]; unfold exec_stmt_log; try exact Q.
  - apply (lrel_bind eq).
    + rewrite (er_asm _ _ _ _ R), (smem_r r inj). destruct (smem cn (e_asm s)); [apply lrel_ret; reflexivity|]. apply lrel_log. rewrite !quoted_tick, !app_nil_r. exact (rm_asm p r start start' e cn Kc).
    + intros _ _ _. apply lrel_ret. split; [exact X | reflexivity].
  - assert (K : M n) by (apply Hc; right; reflexivity). apply (lrel_bind (wk p r)).
    + rewrite (er_indices _ _ _ _ R), (sget_k r inj). destruct (sget (e_indices s) n) as [i|]; [apply lrel_ret; split; [exact R | reflexivity]|].
      apply (lrel_bind eq); [apply lrel_log; rewrite !quoted_tick, !app_nil_r; exact (rm_information p r start start' n K)|]. intros _ _ _. apply lrel_ret. exact (add_unknown_r p r inj n s s' K R).
    + intros [a i] [b j] [A B]. cbn [fst snd] in *. subst j. apply lrel_ret. split; [apply set_g_r; exact A | reflexivity].
  - assert (K : M n) by (apply Hc; left; reflexivity). cbn [renamed pg_target]. rewrite (code n K). destruct (taken_for_code (is_thumb (pg_target p)) n) eqn:T; [|exact Q].
    rewrite (smem_r r inj). destruct (negb (smem n seen)); [|apply lrel_ret; split; [exact R | reflexivity]]. apply (lrel_bind eq).
    + apply lrel_log. rewrite !quoted_tick. pose proof (same n K T) as Sn. rewrite Sn. exact (rm_lowering p r start start' n K Sn).
    + intros _ _ _. apply lrel_ret. split; [exact R | cbn [snd]; apply (sinsert_r r inj)].
Qed.
Lemma exec_define_lr al x y k d : In (k, d) (pg_defines p) -> vals p al -> lse x y -> lrel lse (exec_define_log p al x d) (exec_define_log (renamed r p) (amap r al) y (ren_def r d)).
Proof.
  intros Id Va [R E]. destruct x as [s seen], y as [s' seen']. cbn [fst snd] in R, E. subst seen'. unfold exec_define_log. cbn [ren_def d_name d_stmts].
  rewrite (sget_a r inj). destruct (sget al (d_name d)) as [cn|] eqn:G; cbn [option_map]; [|apply lrel_ret; split; [exact R | reflexivity]]. cbv zeta. cbn [e_indices].
  rewrite (er_indices _ _ _ _ R), (sget_k r inj). destruct (sget (e_indices s) cn) as [c|]; [|apply lrel_quiet; reflexivity].
  apply lrel_fold; [intros a b st I A; apply exec_stmt_lr; [exact Va | exact (Va _ _ G) | | exact A]; intros n Cn; right; exists k, d, st; auto|].
  split; [|reflexivity]. destruct R as [? Ei ? ? Ed ? ?]. constructor; cbn; try assumption; [reflexivity | rewrite Ed; apply (sinsert_r r inj)].
Qed.
Lemma ir_edges_lr n n' : nrel p r n n' -> lrel (erel p r) (ir_edges_log p n) (ir_edges_log (renamed r p) n').
Proof.
  intros R. unfold ir_edges_log. apply (lrel_bind lse); [|intros [e ?] [e' ?] [E _]; apply lrel_ret; exact E]. cbn [renamed pg_defines]. rewrite (nr_aliases _ _ _ _ R). rewrite map_map. cbn [snd]. rewrite <- (map_map snd (ren_def r)).
  apply lrel_fold; [|split; [destruct R; constructor; cbn; try assumption; reflexivity | reflexivity]].
  intros s s' d I A. apply in_map_iff in I as [[k d'] [E I]]. cbn [snd] in E. subst d'. apply (exec_define_lr _ _ _ k); [exact I | apply (nr_vals _ _ _ _ R) | exact A].
Qed.

(** * Machine code *)
Lemma overrides_lr n a b why : M n -> lrel eq (overrides n a b why) (overrides (r n) a b why).
Proof. intros K. rewrite !overrides_note. split; [constructor; [apply rm_override; exact K | constructor] | reflexivity]. Qed.
Lemma settle_lr n asm out lo a : M n -> lrel eq (settle_log n asm out lo a) (settle_log (r n) asm out lo a).
Proof.
  intros K. assert (Same : forall A (x : outcome A), lrel eq (quiet x) (quiet x)) by (intros A x; apply lrel_quiet, orel_eq; reflexivity).
  assert (Ret' : forall A (x : A), lrel eq (lret x) (lret x)) by (intros A x; apply lrel_ret; reflexivity).
  unfold settle_log. apply (lrel_bind eq); [destruct (stack a); [destruct (Bool.eqb _ _)|]; auto|]. intros _ _ _. apply (lrel_bind eq).
  - destruct lo as [m|]; [|destruct (stack a); [|destruct (negb _)]; auto]. apply (lrel_bind eq); [|intros x _ <-; destruct (Bool.eqb _ _); auto].
    destruct (stack a) as [k|]; [|auto]. destruct (_ && asm)%bool; [apply (lrel_bind eq); [apply overrides_lr; exact K | auto]|]. destruct out; [|destruct (m =? k)%N; auto].
    destruct (_ && _)%bool; [apply (lrel_bind eq); [apply overrides_lr; exact K | auto] | auto].
  - intros lo' _ <-. apply (lrel_bind eq); [|auto]. destruct lo'; [auto|]. apply lrel_log, rm_quoted_usage. exact K.
Qed.
Lemma exec_code_lr n n' e e' st tx x y s : In s (pg_defined p) -> nrel p r n n' -> erel p r e e' -> xrel p r x y ->
  lrel (xrel p r) (exec_code_log p n e st tx x s) (exec_code_log (renamed r p) n' e' st tx y (fst s, ren_sym r (snd s))).
Proof.
  intros Is R E X. unfold exec_code_log. destruct s as [a sym]. cbn [fst snd ren_sym sy_names renamed pg_tags pg_target]. cbv zeta. destruct (sy_names sym) as [|nm nms] eqn:En; [apply lrel_quiet; reflexivity|]. cbn [map].
  rewrite (nr_aliases _ _ _ _ R), (sget_a r inj). destruct (sget (n_aliases n) nm) as [cn|] eqn:Ea; cbn [option_map]; [|apply lrel_quiet; reflexivity].
  assert (K : M cn) by (apply (nr_vals _ _ _ _ R) with nm; exact Ea).
  change (code_size (pg_tags p) (a mod 2 ^ 32) (ren_sym r sym)) with (code_size (pg_tags p) (a mod 2 ^ 32) sym).
  assert (Same : forall A (z : outcome A), lrel eq (quiet z) (quiet z)) by (intros A z; apply lrel_quiet, orel_eq; reflexivity).
  apply (lrel_bind eq); [apply Same|]. intros size _ <-. apply (lrel_bind eq); [apply Same|]. intros bytes _ <-. apply (lrel_bind eq); [apply Same|]. intros an _ <-.
  rewrite (er_indices _ _ _ _ E), (sget_k r inj). destruct (sget (e_indices e) cn) as [c|]; [|apply lrel_quiet; reflexivity]. destruct x as [g sn], y as [g' sn']. destruct X as [G Q]. cbn [fst snd] in G, Q. subst sn'.
  rewrite (grel_get_local r M _ _ c G), (er_asm _ _ _ _ E), (er_defined _ _ _ _ E), !(smem_r r inj), (kt_outlined _ _ _ kp cn K).
  apply (lrel_bind eq); [apply Same|]. intros lo _ <-. apply (lrel_bind eq); [apply settle_lr; exact K|]. intros lo2 _ <-.
  apply (grel_set_local r M _ _ c lo2) in G. apply (lrel_bind (grel r M)).
  { destruct (_ && _)%bool; [|apply lrel_ret; exact G]. apply (lrel_bind eq); [apply lrel_log; rewrite !quoted_tick; exact (rm_blind p r start start' cn K)|]. intros _ _ _.
    destruct (grel_add r M _ _ _ (new_node (lit "?") None false) G (or_introl eq_refl)) as [A B]. destruct (add_node (set_node_local g c lo2) _) as [h i], (add_node (set_node_local g' c lo2) _) as [h' i']. cbn [fst snd] in A, B. subst i'. apply lrel_ret, grel_edge. exact A. }
  intros h h' H. rewrite (nr_addr _ _ _ _ R). apply (lrel_bind (xrel p r)); [apply lrel_quiet | intros u v Huv; apply lrel_quiet].
  - rewrite <- (map_id (bls an)) at 2. apply orel_ofold; [|split; [exact H | reflexivity]]. intros u v o _ Huv. unfold add_bl. rewrite (node_at_r r inj). apply (orel_bind eq); [apply orel_eq; reflexivity|]. intros k _ <-. apply once_r. exact Huv.
  - rewrite <- (map_id (bs an)) at 2. apply orel_ofold; [|exact Huv]. intros u' v' o _ H'. unfold add_b. cbv zeta. destruct (_ && _)%bool; [exact H'|]. rewrite (node_at_r r inj). apply (orel_bind eq); [apply orel_eq; reflexivity|]. intros k _ <-. apply once_r. exact H'.
Qed.
Lemma machine_lr n n' e e' : nrel p r n n' -> erel p r e e' -> lrel (grel r M) (machine_edges_log p n e) (machine_edges_log (renamed r p) n' e').
Proof.
  intros R E. unfold machine_edges_log. cbn [renamed pg_target pg_text pg_defined]. destruct (is_thumb (pg_target p)); [|apply lrel_ret, (er_g _ _ _ _ E)]. destruct (pg_text p) as [[st tx]|].
  - apply (lrel_bind (xrel p r)); [|intros [g s] [g' s'] [G _]; apply lrel_ret; exact G].
    apply lrel_fold; [intros s s' x I X; apply exec_code_lr; assumption|]. split; [apply (er_g _ _ _ _ E) | apply (er_seen _ _ _ _ E)].
  - apply (lrel_bind eq); [apply lrel_log; apply rm_text|]. intros _ _ _. apply lrel_ret, (er_g _ _ _ _ E).
Qed.
(** * Calls through pointers *)
Lemma no_callees_lr l : lrel eq (no_callees l) (no_callees l).
Proof. rewrite no_callees_note. split; [constructor; [apply rm_callee | constructor] | reflexivity]. Qed.
Lemma indirect_lr1 o untyped fmts void g g' e : grel r M g g' -> lrel (grel r M) (add_indirect_log o untyped fmts void g e) (add_indirect_log o untyped fmts void g' e).
Proof.
  intros G. apply lrel_both; [|rewrite !indirect_erase1; apply grel_indirect; exact G]. destruct e as [sig ind]. unfold add_indirect_log. destruct (negb (ic_called ind)); [apply lrel_ret; exact I|].
  assert (N : forall (b : bool) l, lrel eq (if b then no_callees l else lret tt) (if b then no_callees l else lret tt)) by (intros [|] l; [apply no_callees_lr | apply lrel_ret; reflexivity]).
  apply (lrel_bind eq); [destruct (special_fmt void sig); [apply (lrel_bind eq); [apply N|]; intros _ _ _|]; apply lrel_ret; reflexivity|]. intros cs _ <-. cbv zeta. cbn [add_node].
  apply (lrel_tail anything). destruct untyped; [apply lrel_ret; exact I|]. apply (lrel_tail eq), N.
Qed.
Lemma indirect_lr o untyped fmts m g g' : grel r M g g' -> lrel (grel r M) (indirect_edges_log o untyped fmts m g) (indirect_edges_log o untyped fmts m g').
Proof.
  intros G. unfold indirect_edges_log. apply (lrel_bind eq); [destruct untyped; [apply lrel_log, rm_untyped | apply lrel_ret; reflexivity]|]. intros _ _ _. cbv zeta.
  rewrite <- (map_id (o_sigs o m)) at 4. apply lrel_fold; [|exact G]. intros s s' x _ H. apply indirect_lr1. exact H.
Qed.
(** * The whole *)
Lemma build_lr o : lrel (brel p r) (build_log demangle o p) (build_log demangle o (renamed r p)).
Proof.
  unfold build_log. destruct (default_methods_total demangle (map fst (pg_defines p))) as [l ->]. destruct (default_methods_total demangle (map fst (pg_defines (renamed r p)))) as [l' ->].
  apply (lrel_bind anything); [apply lrel_quiet; exact I|]. intros _ _ _. apply (lrel_bind _ _ _ _ _ _ real_nodes_lr). intros n n' R. apply (lrel_bind _ _ _ _ _ _ (ir_edges_lr n n' R)). intros e e' E. apply (lrel_bind _ _ _ _ _ _ (machine_lr n n' e e' R E)). intros g g' G.
  rewrite (nr_untyped _ _ _ _ R), (nr_fmts _ _ _ _ R), (er_ind _ _ _ _ E). apply (lrel_bind _ _ _ _ _ _ (indirect_lr o _ _ _ g g' G)). intros h h' H. apply lrel_ret.
  constructor; cbn; [exact H | apply (er_indices _ _ _ _ E) | apply (nr_amb _ _ _ _ R) | apply (nr_info _ _ _ _ R) | apply (er_keys _ _ _ _ E)].
Qed.
Lemma filter_lr ix g g' : keys p ix -> same_start demangle p r start start' -> grel r M g g' -> lrel (grel r M) (filter_start_log demangle ix start g) (filter_start_log demangle (kmap r ix) start' g').
Proof.
  intros Ki Hs G. unfold filter_start_log. destruct start as [s|] eqn:Es, start' as [s'|] eqn:Es'; try contradiction; [|apply lrel_ret; exact G]. apply (lrel_bind eq).
  - apply lrel_both; [|rewrite !resolve_erase, (resolve_r demangle p r ix s s' Ki Hs); reflexivity]. unfold resolve_start_log. rewrite (sget_start r ix s s') by (intros n I; apply Hs, Ki, I). destruct (sget ix s) as [i|]; [apply lrel_ret; exact I|].
    assert (E : filter (fun kv => starts_with (s' ++ lit "::h") (demangle (fst kv))) (kmap r ix) = kmap r (filter (fun kv => starts_with (s ++ lit "::h") (demangle (fst kv))) ix)).
    { clear -Ki Hs. unfold kmap. induction ix as [|[k i] ix IH]; [reflexivity|]. cbn [map filter fst snd]. rewrite (proj2 (Hs k (Ki k (or_introl eq_refl)))), IH by (intros n I; apply Ki; right; exact I). destruct (starts_with _ (demangle k)); reflexivity. }
    cbv zeta. rewrite E. assert (Kf : forall n, In n (map fst (filter (fun kv => starts_with (s ++ lit "::h") (demangle (fst kv))) ix)) -> M n).
    { intros n J. apply in_map_iff in J as [[k i] [<- J]]. apply filter_In in J as [J _]. apply Ki, in_map_iff. exists (k, i). auto. }
    destruct (filter _ ix) as [|[a i] [|[b j] l]]; [apply lrel_ret; exact I | apply lrel_ret; exact I|]. cbn [kmap map fst snd]. apply (lrel_tail eq), lrel_log.
    set (hs := a :: b :: map fst l). assert (Eh : r a :: r b :: map fst (map (fun x => (r (fst x), snd x)) l) = map r hs) by (unfold hs; cbn [map]; rewrite !map_map; reflexivity).
    rewrite !quoted_tick, <- !app_assoc. cbn [fst snd]. rewrite Eh. change (map fst ((a, i) :: (b, j) :: l)) with hs in *. change (a :: b :: map fst l) with hs.
    refine (rm_multiple p r start start' s s' (sort_strs hs) (sort_strs (map r hs)) (debug_list (sort_strs hs)) (debug_list (sort_strs (map r hs))) Es Es' (sort_sorted _) (sort_sorted _) _ _ (debug_list_literals _) (debug_list_literals _)).
    + rewrite sort_perm. apply Permutation_sym, Permutation_map, sort_perm.
    + intros n J. apply Kf. exact (Permutation_in _ (sort_perm hs) J).
  - intros i _ <-. destruct i as [i|]; [apply lrel_quiet, grel_reachable; exact G|]. apply (lrel_bind eq); [apply lrel_log, rm_missing|]. intros _ _ _. apply lrel_ret. exact G.
Qed.
Theorem report_lr o : same_start demangle p r start start' -> lrel (crel r M) (report_log demangle o start p) (report_log demangle o start' (renamed r p)).
Proof.
  intros Hs. unfold report_log. apply (lrel_bind _ _ _ _ _ _ (build_lr o)). intros b b' B. rewrite (br_indices _ _ _ _ B). apply (lrel_bind _ _ _ _ _ _ (filter_lr _ _ _ (br_keys _ _ _ _ B) Hs (br_g _ _ _ _ B))). intros g g' G.
  rewrite (br_info _ _ _ _ B), (br_amb _ _ _ _ B). apply (lrel_bind (crel r M)).
  - unfold max_stack_log. destruct (negb (b_info b)); [|apply lrel_quiet, grel_max; exact G]. apply (lrel_bind eq); [apply lrel_log, rm_figures|]. intros _ _ _. apply lrel_ret. split; [exact G | reflexivity].
  - intros [h cs] [h' cs'] [H C]. cbn [fst snd] in H, C. subst cs'. apply (lrel_bind (grel r M)); [apply lrel_quiet, grel_shorten; [intros n K; apply (kt_short _ _ _ kp n K) | exact H]|].
    intros x y A. apply lrel_ret. split; [exact A | reflexivity].
Qed.
End Log.

(** * Renamings of the names of a program *)
Lemma taken_llvm b n : taken_for_code b n = true -> starts_with (lit "llvm.") n = true.
Proof.
  intros H. destruct b; [|].
  - apply taken_iff in H as [H _]. discriminate H.
  - apply taken_iff in H as [_ H]. destruct H as [->|[pre [x [-> I]]]]; [reflexivity|]. cbn [In] in I. repeat (destruct I as [<-|I]; [reflexivity|]). destruct I.
Qed.
Theorem renamed_log demangle o p r start start' : distinct (names_of p) r -> keeps demangle p r -> same_start demangle p r start start' ->
  Forall2 (renamed_message p r start start') (fst (report_log demangle o start p)) (fst (report_log demangle o start' (renamed r p))).
Proof.
  intros D K S. destruct (extended demangle p r D K) as [f [I [Fx [Kf [Rn L]]]]]. rewrite <- Rn.
  assert (Q : forall n, looked_at p n -> taken_for_code (is_thumb (pg_target p)) (f n) = taken_for_code (is_thumb (pg_target p)) n /\ (taken_for_code (is_thumb (pg_target p)) n = true -> f n = n)).
  { intros n Ln. rewrite (L n Ln). pose proof (kp_llvm _ _ _ K n Ln) as E. destruct (taken_for_code (is_thumb (pg_target p)) n) eqn:A; [rewrite (E (or_introl (taken_llvm _ _ A))); split; [exact A | reflexivity] | split; [|discriminate]].
    destruct (taken_for_code (is_thumb (pg_target p)) (r n)) eqn:B; [|reflexivity]. pose proof (taken_llvm _ _ B) as B'. rewrite (E (or_intror B')) in B. congruence. }
  destruct (report_lr demangle p f start start' I Fx Kf (fun n Ln => proj1 (Q n Ln)) (fun n Ln => proj2 (Q n Ln)) o (start_ext _ _ _ _ _ _ L S)) as [H _].
  revert H. apply L_build4.Forall2_imp. intros m m' H.
  destruct H; try (rewrite (L n) by assumption; constructor; assumption); try (constructor; assumption); [rewrite (L n) in * by assumption; constructor; assumption|].
  match goal with P : Permutation hits' _, K : forall n, In n hits -> _ |- _ => apply (rm_multiple _ _ _ _ s s' hits hits'); try assumption; rewrite <- (map_ext_in _ _ _ (fun n J => L n (K n J))); exact P end.
Qed.
