(** Programs that differ in the names of their functions: the construction of the graph. *)
From Verif Require Import M_base M_stack M_graph M_analysis M_filter M_names M_thumb M_ty M_parse M_build M_run S_rename L_base L_names L_build1 L_rename.

(** What the tool reads off a name. *)
Record kept (demangle : str -> str) (p : prog) (r : str -> str) : Prop := {
  kt_tag : forall n, looked_at p n -> is_tag_name (r n) = is_tag_name n;
  kt_outlined : forall n, looked_at p n -> is_outlined_function (r n) = is_outlined_function n;
  kt_class : forall n, looked_at p n -> classify (is_thumb (pg_target p)) (r n) = classify (is_thumb (pg_target p)) n;
  kt_short : forall n, looked_at p n -> dehash (demangle (r n)) = dehash (demangle n)
}.
Section Build.
Variables (demangle : str -> str) (p : prog) (r : str -> str).
Hypothesis inj : forall a b, r a = r b -> a = b.
Hypothesis fixed : forall n, In n known_names -> r n = n.
Hypothesis kp : kept demangle p r.
Notation M := (looked_at p).
Notation rel := (grel r M).

(** * Real nodes *)
Lemma untagged_r s : (forall n, In n (sy_names s) -> M n) -> untagged (ren_sym r s) = map r (untagged s) /\ forall n, In n (untagged s) -> M n.
Proof.
  intros H. unfold untagged. split; [|intros n I; apply filter_In in I; apply H, I]. cbn [ren_sym sy_names]. revert H. generalize (sy_names s) as l. clear s.
  induction l as [|n l IH]; intros H; [reflexivity|]. cbn [map filter]. rewrite (kt_tag _ _ _ kp n) by (apply H; left; reflexivity). rewrite IH by (intros m I; apply H; right; exact I). destruct (negb _); reflexivity.
Qed.
Lemma find_r (l : list str) : find (shas (kmap r (pg_sizes p))) (map r l) = option_map r (find (shas (pg_sizes p)) l).
Proof. induction l as [|n l IH]; [reflexivity|]. cbn [map find]. rewrite (shas_k r inj). destruct (shas (pg_sizes p) n); [reflexivity | exact IH]. Qed.
Lemma canonical_r names : (forall n, In n names -> M n) -> orel (fun c c' => M c /\ c' = r c) (canonical (pg_sizes p) names) (canonical (kmap r (pg_sizes p)) (map r names)).
Proof.
  intros H. destruct names as [|n [|m l]]; [reflexivity | split; [apply H; left; reflexivity | reflexivity]|]. cbn [canonical map]. change (r n :: r m :: map r l) with (map r (n :: m :: l)). rewrite find_r.
  destruct (find _ (n :: m :: l)) as [c|] eqn:F; cbn [option_map orel]; [|split; [apply H; left; reflexivity | reflexivity]]. apply find_some in F. split; [apply H, F | reflexivity].
Qed.
Lemma first_some_map {A B} (h : A -> B) (l : list (option A)) : first_some (map (option_map h) l) = option_map h (first_some l).
Proof. unfold first_some. assert (E : somes (map (option_map h) l) = map h (somes l)) by (induction l as [|[x|] l IH]; cbn [map option_map somes]; [reflexivity | rewrite IH; reflexivity | exact IH]). rewrite E. destruct (somes l); reflexivity. Qed.
Definition dmap (m : list (str * define)) := map (fun x => (r (fst x), ren_def r (snd x))) m.
Lemma sget_d m k : sget (dmap m) (r k) = option_map (ren_def r) (sget m k).
Proof. induction m as [|[a b] m IH]; [reflexivity|]. cbn [dmap map sget fst snd]. rewrite (r_eqb r inj). destruct (str_eqb a k); [reflexivity | exact IH]. Qed.
Lemma def_of_r names : def_of (dmap (pg_defines p)) (map r names) = option_map (ren_def r) (def_of (pg_defines p) names).
Proof. unfold def_of. rewrite <- first_some_map, !map_map. f_equal. apply map_ext. intros k. apply sget_d. Qed.
Lemma decl_of_r names : decl_of (kmap r (pg_declares p)) (map r names) = decl_of (pg_declares p) names.
Proof. unfold decl_of. rewrite map_map. f_equal. apply map_ext. intros k. rewrite (sget_k r inj). reflexivity. Qed.
Lemma aliases_r names c : forall m, fold_left (fun m n => sput m n (r c)) (map r names) (amap r m) = amap r (fold_left (fun m n => sput m n c) names m).
Proof. induction names as [|n l IH]; intros m; [reflexivity|]. cbn [map fold_left]. rewrite (sput_a r inj). apply IH. Qed.
(** The aliases lead to names that are looked at, and so do the keys of the table of nodes. *)
Definition vals (m : list (str * str)) : Prop := forall k v, sget m k = Some v -> M v.
Definition keys (m : list (str * nat)) : Prop := forall k, In k (map fst m) -> M k.
Lemma vals_put m k v : vals m -> M v -> vals (sput m k v).
Proof. intros V K a b. rewrite sget_sput. destruct (str_eqb k a); [intros [= <-]; exact K | apply V]. Qed.
Lemma vals_fold names c : M c -> forall m, vals m -> vals (fold_left (fun m n => sput m n c) names m).
Proof. intros K. induction names as [|n l IH]; intros m V; [exact V|]. cbn [fold_left]. apply IH, vals_put; assumption. Qed.
Lemma keys_put m k v : keys m -> M k -> keys (sput m k v).
Proof. intros V K a I. apply sput_keys in I as [I| ->]; [apply V, I | exact K]. Qed.
Record nrel (s s' : nodes) : Prop := {
  nr_g : rel (n_g s) (n_g s');
  nr_indices : n_indices s' = kmap r (n_indices s);
  nr_aliases : n_aliases s' = amap r (n_aliases s);
  nr_addr : n_addr2name s' = bmap r (n_addr2name s);
  nr_amb : n_ambiguous s' = n_ambiguous s;
  nr_ind : n_indirects s' = n_indirects s;
  nr_fmts : n_fmts s' = n_fmts s;
  nr_info : n_info s' = n_info s;
  nr_untyped : n_untyped s' = n_untyped s;
  nr_vals : vals (n_aliases s);
  nr_keys : keys (n_indices s)
}.
Lemma note_r a c : M c -> note_name demangle a (r c) = note_name demangle a c.
Proof. intros K. unfold note_name. rewrite (kt_short _ _ _ kp c K). reflexivity. Qed.
Lemma add_real_r s s' x : In x (pg_defined p) -> nrel s s' -> orel nrel (add_real demangle p s x) (add_real demangle (renamed r p) s' (fst x, ren_sym r (snd x))).
Proof.
  intros Ix R. destruct x as [a sym]. unfold add_real. cbn [fst snd renamed pg_sizes pg_defines pg_declares]. cbv zeta.
  destruct (untagged_r sym) as [U V]; [intros n I; left; exists a, sym; split; assumption|]. rewrite U.
  apply (orel_bind _ _ _ _ _ _ (canonical_r (untagged sym) V)). intros c c' [K ->]. rewrite (nr_aliases _ _ R), (nr_addr _ _ R), (nr_amb _ _ R), (nr_indices _ _ R), (nr_info _ _ R), (nr_ind _ _ R), (nr_fmts _ _ R), (nr_untyped _ _ R).
  rewrite (note_r _ _ K). apply (orel_bind eq); [apply orel_eq; reflexivity|]. intros amb _ <-. change (map (fun x => (r (fst x), snd x)) (pg_sizes p)) with (kmap r (pg_sizes p)). rewrite (sget_k r inj).
  assert (Sn : same_node r M (new_node c (sget (pg_sizes p) c) false) (new_node (r c) (sget (pg_sizes p) c) false)) by (right; split; [exact K | reflexivity]).
  destruct (grel_add r M _ _ _ _ (nr_g _ _ R) Sn) as [A B]. destruct (add_node (n_g s) _) as [g i], (add_node (n_g s') _) as [g' i']. cbn [fst snd] in A, B. subst i'.
  change (map (fun x => (r (fst x), ren_def r (snd x))) (pg_defines p)) with (dmap (pg_defines p)). change (map (fun x => (r (fst x), snd x)) (pg_declares p)) with (kmap r (pg_declares p)).
  rewrite def_of_r, decl_of_r, aliases_r, (bput_r r), (sput_k r inj), (kt_outlined _ _ _ kp c K).
  destruct (def_of (pg_defines p) (untagged sym)) as [d|]; cbn [option_map]; [|destruct (decl_of (pg_declares p) (untagged sym)) as [sg|]];
    (constructor; cbn; try reflexivity; [exact A | apply vals_fold; [exact K | apply (nr_vals _ _ R)] | apply keys_put; [apply (nr_keys _ _ R) | exact K]]).
Qed.
Lemma real_nodes_r : orel nrel (real_nodes demangle p) (real_nodes demangle (renamed r p)).
Proof.
  unfold real_nodes. cbn [renamed pg_defined]. apply orel_ofold; [intros s s' x I R; apply add_real_r; assumption|].
  constructor; try reflexivity; [split; [constructor | reflexivity] | intros k v E; discriminate E | intros k []].
Qed.

(** * Calls in the LLVM IR *)
Record erel (s s' : edgest) : Prop := {
  er_g : rel (e_g s) (e_g s');
  er_indices : e_indices s' = kmap r (e_indices s);
  er_ind : e_indirects s' = e_indirects s;
  er_seen : e_seen s' = e_seen s;
  er_defined : e_defined s' = map r (e_defined s);
  er_asm : e_asm s' = map r (e_asm s);
  er_keys : keys (e_indices s)
}.
Definition xrel (x y : graph node * list (nat * nat)) : Prop := rel (fst x) (fst y) /\ snd y = snd x.
Lemma once_r c k x y : xrel x y -> xrel (add_once c k x) (add_once c k y).
Proof. destruct x as [g s], y as [g' s']. intros [G E]. cbn [fst snd] in *. subst s'. unfold add_once. destruct (pmem (c, k) s); (split; [|reflexivity]); [exact G | apply grel_edge; exact G]. Qed.
Lemma call_once_r c k s s' : erel s s' -> erel (call_once c k s) (call_once c k s').
Proof.
  intros R. unfold call_once. pose proof (once_r c k (e_g s, e_seen s) (e_g s', e_seen s') (conj (er_g _ _ R) (er_seen _ _ R))) as [G E].
  destruct (add_once c k (e_g s, e_seen s)) as [g sn], (add_once c k (e_g s', e_seen s')) as [g' sn']. cbn [fst snd] in G, E. subst sn'.
  destruct R. constructor; cbn; assumption || reflexivity.
Qed.
Lemma add_unknown_r n s s' : M n -> erel s s' -> erel (fst (add_unknown n s)) (fst (add_unknown (r n) s')) /\ snd (add_unknown (r n) s') = snd (add_unknown n s).
Proof.
  intros K R. unfold add_unknown. assert (Sn : same_node r M (new_node n None false) (new_node (r n) None false)) by (right; split; [exact K | reflexivity]).
  destruct (grel_add r M _ _ _ _ (er_g _ _ R) Sn) as [A B]. destruct (add_node (e_g s) _) as [g i], (add_node (e_g s') _) as [g' i']. cbn [fst snd] in *. subst i'. split; [|reflexivity].
  destruct R as [? Ei ? ? ? ? Ek]. constructor; cbn; try assumption; [rewrite Ei; apply (sput_k r inj) | apply keys_put; assumption].
Qed.
Lemma set_g_r s s' u v : erel s s' -> erel (e_set_g s (add_edge (e_g s) u v)) (e_set_g s' (add_edge (e_g s') u v)).
Proof. intros R. destruct R. constructor; cbn; try assumption. apply grel_edge. assumption. Qed.
Lemma sget_known {A} (m : list (str * A)) n : In n known_names -> sget (kmap r m) n = sget m n.
Proof. intros K. rewrite <- (fixed n K) at 1. apply (sget_k r inj). Qed.
Lemma mem_r names c : (forall n, In n names -> In n known_names) -> forall s s', erel s s' ->
  erel (fold_left (fun s n => match sget (e_indices s) n with Some callee => call_once c callee s | None => s end) names s)
       (fold_left (fun s n => match sget (e_indices s) n with Some callee => call_once c callee s | None => s end) names s').
Proof.
  induction names as [|n l IH]; intros H s s' R; [exact R|]. cbn [fold_left]. rewrite (er_indices _ _ R), sget_known by (apply H; left; reflexivity).
  apply IH; [intros m I; apply H; right; exact I|]. destruct (sget (e_indices s) n); [apply call_once_r; exact R | exact R].
Qed.
Lemma class_known b n names : classify b n = CMem names -> forall m, In m names -> In m known_names.
Proof.
  assert (A : forall m, In m memcpy_names -> In m known_names) by (intros m; unfold memcpy_names, known_names; cbn [map In]; tauto).
  assert (B : forall m, In m memset_names -> In m known_names) by (intros m; unfold memset_names, known_names; cbn [map In]; tauto).
  unfold classify. intros E. repeat match type of E with context [if ?c then _ else _] => destruct c end; try discriminate E; injection E as <-; assumption.
Qed.
Definition wk (x y : edgest * nat) : Prop := erel (fst x) (fst y) /\ snd y = snd x.
Lemma exec_stmt_r al cn cl s s' st : vals al -> (forall n, calls_name st n -> M n) -> erel s s' ->
  orel erel (exec_stmt p al cn cl s st) (exec_stmt (renamed r p) (amap r al) (r cn) cl s' (ren_stmt r st)).
Proof.
  intros Va Hc R. destruct st as [x|[n|]|n|sg| | |]; cbn [ren_stmt exec_stmt].
  - destruct R as [? ? ? ? ? Ea ?]. constructor; cbn; try assumption. rewrite Ea. apply (sinsert_r r inj).
  - assert (K : M n) by (apply Hc; right; reflexivity). rewrite (er_indices _ _ R), (sget_k r inj). destruct (sget (e_indices s) n) as [i|]; [apply set_g_r; exact R|].
    destruct (add_unknown_r n s s' K R) as [A B]. destruct (add_unknown n s) as [s1 i], (add_unknown (r n) s') as [s1' i']. cbn [fst snd] in *. subst i'. apply set_g_r. exact A.
  - reflexivity.
  - assert (K : M n) by (apply Hc; left; reflexivity). cbn [renamed pg_target pg_undefined]. rewrite (kt_class _ _ _ kp n K).
    destruct (classify (is_thumb (pg_target p)) n) as [|names| |] eqn:Cl; [exact R | apply mem_r; [exact (class_known _ _ _ Cl) | exact R] | reflexivity|].
    assert (Mc : str_eqb (r n) (lit "memcmp") = str_eqb n (lit "memcmp")) by (rewrite <- (fixed (lit "memcmp")) at 1 by (unfold known_names; cbn [map In]; tauto); apply (r_eqb r inj)).
    rewrite Mc, (er_indices _ _ R), (shas_k r inj). destruct (_ && _)%bool; [exact R|].
    apply (orel_bind wk); [|intros [a i] [b j] [A B]; cbn [fst snd] in *; subst j; apply call_once_r; exact A].
    rewrite (sget_a r inj). destruct (sget al n) as [cn'|]; cbn [option_map].
    + rewrite (sget_k r inj). destruct (sget (e_indices s) cn') as [i|]; [split; [exact R | reflexivity] | reflexivity].
    + rewrite (smem_r r inj). destruct (negb _); [reflexivity|]. rewrite (sget_k r inj). destruct (sget (e_indices s) n) as [i|]; [split; [exact R | reflexivity]|].
      cbn [orel]. apply add_unknown_r; assumption.
  - destruct R as [? ? Ei ? ? ? ?]. constructor; cbn; try assumption. rewrite Ei. reflexivity.
  - exact R.
  - exact R.
  - exact R.
Qed.
Lemma exec_define_r al s s' k d : In (k, d) (pg_defines p) -> vals al -> erel s s' -> orel erel (exec_define p al s d) (exec_define (renamed r p) (amap r al) s' (ren_def r d)).
Proof.
  intros Id Va R. unfold exec_define. cbn [ren_def d_name d_stmts]. rewrite (sget_a r inj). destruct (sget al (d_name d)) as [cn|] eqn:E; cbn [option_map]; [|exact R]. cbv zeta. cbn [e_indices].
  rewrite (er_indices _ _ R), (sget_k r inj). destruct (sget (e_indices s) cn) as [c|]; [|reflexivity].
  apply orel_ofold; [intros a b st I A; apply exec_stmt_r; [exact Va | | exact A]; intros n Cn; right; exists k, d, st; auto|].
  destruct R as [? Ei ? ? Ed ? ?]. constructor; cbn; try assumption; [reflexivity | rewrite Ed; apply (sinsert_r r inj)].
Qed.
Lemma ir_edges_r n n' : nrel n n' -> orel erel (ir_edges p n) (ir_edges (renamed r p) n').
Proof.
  intros R. unfold ir_edges. cbn [renamed pg_defines]. rewrite (nr_aliases _ _ R). rewrite map_map. cbn [snd]. rewrite <- (map_map snd (ren_def r)).
  apply orel_ofold; [|destruct R; constructor; cbn; try assumption; reflexivity].
  intros s s' d I A. apply in_map_iff in I as [[k d'] [E I]]. cbn [snd] in E. subst d'. apply (exec_define_r _ _ _ k); [exact I | apply (nr_vals _ _ R) | exact A].
Qed.

(** * Machine code *)
Lemma node_at_r ix m a : node_at (kmap r ix) (bmap r m) a = node_at ix m a.
Proof. unfold node_at. rewrite (bget_r r). destruct (bget m a) as [n|]; cbn [option_map]; [rewrite (sget_k r inj)|]; reflexivity. Qed.
Lemma exec_code_r n n' e e' st tx x y s : In s (pg_defined p) -> nrel n n' -> erel e e' -> xrel x y ->
  orel xrel (exec_code p n e st tx x s) (exec_code (renamed r p) n' e' st tx y (fst s, ren_sym r (snd s))).
Proof.
  intros Is R E X. unfold exec_code. destruct s as [a sym]. cbn [fst snd ren_sym sy_names renamed pg_tags pg_target]. cbv zeta. destruct (sy_names sym) as [|nm nms] eqn:En; [reflexivity|]. cbn [map].
  rewrite (nr_aliases _ _ R), (sget_a r inj). destruct (sget (n_aliases n) nm) as [cn|] eqn:Ea; cbn [option_map]; [|reflexivity].
  assert (K : M cn) by (apply (nr_vals _ _ R) with nm; exact Ea).
  change (code_size (pg_tags p) (a mod 2 ^ 32) (ren_sym r sym)) with (code_size (pg_tags p) (a mod 2 ^ 32) sym).
  apply (orel_bind eq); [apply orel_eq; reflexivity|]. intros size _ <-. apply (orel_bind eq); [apply orel_eq; reflexivity|]. intros code _ <-. apply (orel_bind eq); [apply orel_eq; reflexivity|]. intros an _ <-.
  rewrite (er_indices _ _ E), (sget_k r inj). destruct (sget (e_indices e) cn) as [c|]; [|reflexivity]. destruct x as [g sn], y as [g' sn']. destruct X as [G Q]. cbn [fst snd] in G, Q. subst sn'.
  rewrite (grel_get_local r M _ _ c G), (er_asm _ _ E), (er_defined _ _ E), !(smem_r r inj), (kt_outlined _ _ _ kp cn K).
  apply (orel_bind eq); [apply orel_eq; reflexivity|]. intros lo _ <-. apply (orel_bind eq); [apply orel_eq; reflexivity|]. intros lo2 _ <-.
  assert (Fe : forall (b : bool) (h h' : graph node), rel h h' -> rel (if b then let '(g, callee) := add_node h (new_node (lit "?") None false) in add_edge g c callee else h) (if b then let '(g, callee) := add_node h' (new_node (lit "?") None false) in add_edge g c callee else h')).
  { intros [|] h h' H; [|exact H]. destruct (grel_add r M h h' _ (new_node (lit "?") None false) H (or_introl eq_refl)) as [A B]. destruct (add_node h _) as [k i], (add_node h' _) as [k' i']. cbn [fst snd] in A, B. subst i'. apply grel_edge. exact A. }
  rewrite (nr_addr _ _ R).
  apply (orel_bind xrel).
  - rewrite <- (map_id (bls an)) at 2. apply orel_ofold; [|split; [apply Fe, grel_set_local; exact G | reflexivity]]. intros u v o _ Huv. unfold add_bl. rewrite node_at_r. apply (orel_bind eq); [apply orel_eq; reflexivity|]. intros k _ <-. apply once_r. exact Huv.
  - intros u v Huv. rewrite <- (map_id (bs an)) at 2. apply orel_ofold; [|exact Huv]. intros u' v' o _ H'. unfold add_b. cbv zeta. destruct (_ && _)%bool; [exact H'|]. rewrite node_at_r. apply (orel_bind eq); [apply orel_eq; reflexivity|]. intros k _ <-. apply once_r. exact H'.
Qed.
Lemma machine_r n n' e e' : nrel n n' -> erel e e' -> orel rel (machine_edges p n e) (machine_edges (renamed r p) n' e').
Proof.
  intros R E. unfold machine_edges. cbn [renamed pg_target pg_text pg_defined]. destruct (is_thumb (pg_target p)); [|apply (er_g _ _ E)]. destruct (pg_text p) as [[st tx]|]; [|apply (er_g _ _ E)].
  apply (orel_bind xrel); [|intros [g s] [g' s'] [G _]; exact G].
  apply orel_ofold; [intros s s' x I X; apply exec_code_r; assumption|]. split; [apply (er_g _ _ E) | apply (er_seen _ _ E)].
Qed.
(** * The whole *)
Record brel (b b' : built) : Prop := {
  br_g : rel (b_g b) (b_g b');
  br_indices : b_indices b' = kmap r (b_indices b);
  br_amb : b_ambiguous b' = b_ambiguous b;
  br_info : b_info b' = b_info b;
  br_keys : keys (b_indices b)
}.
Lemma build_r o : orel brel (build demangle o p) (build demangle o (renamed r p)).
Proof.
  unfold build. destruct (default_methods_total demangle (map fst (pg_defines p))) as [l ->]. destruct (default_methods_total demangle (map fst (pg_defines (renamed r p)))) as [l' ->]. cbn [bind].
  apply (orel_bind _ _ _ _ _ _ real_nodes_r). intros n n' R. apply (orel_bind _ _ _ _ _ _ (ir_edges_r n n' R)). intros e e' E. apply (orel_bind _ _ _ _ _ _ (machine_r n n' e e' R E)). intros g g' G.
  constructor; cbn; [|apply (er_indices _ _ E) | apply (nr_amb _ _ R) | apply (nr_info _ _ R) | apply (er_keys _ _ E)]. rewrite (nr_untyped _ _ R), (nr_fmts _ _ R), (er_ind _ _ E). apply grel_indirects. exact G.
Qed.
Lemma sget_start (ix : list (str * nat)) s s' : (forall n, In n (map fst ix) -> (r n = s' <-> n = s)) -> sget (kmap r ix) s' = sget ix s.
Proof.
  induction ix as [|[k i] ix IH]; intros H; [reflexivity|]. cbn [kmap map sget fst snd]. rewrite <- (IH (fun n I => H n (or_intror I))). assert (Q := H k (or_introl eq_refl)).
  destruct (str_eqb_spec (r k) s') as [A|A], (str_eqb_spec k s) as [B|B]; try reflexivity; tauto.
Qed.
Lemma resolve_r ix s s' : keys ix -> same_start demangle p r (Some s) (Some s') -> resolve_start demangle (kmap r ix) s' = resolve_start demangle ix s.
Proof.
  intros Ki Hs. unfold resolve_start. rewrite (sget_start ix s s') by (intros n I; apply Hs, Ki, I). destruct (sget ix s) as [i|]; [reflexivity|].
  assert (E : filter (fun kv => starts_with (s' ++ lit "::h") (demangle (fst kv))) (kmap r ix) = kmap r (filter (fun kv => starts_with (s ++ lit "::h") (demangle (fst kv))) ix)).
  { clear -Ki Hs. unfold kmap. induction ix as [|[k i] ix IH]; [reflexivity|]. cbn [map filter fst snd]. rewrite (proj2 (Hs k (Ki k (or_introl eq_refl)))), IH by (intros n I; apply Ki; right; exact I). destruct (starts_with _ (demangle k)); reflexivity. }
  cbv zeta. rewrite E. destruct (filter _ ix) as [|[? ?] [|? ?]]; reflexivity.
Qed.
Theorem report_r o start start' : same_start demangle p r start start' -> orel (crel r M) (report demangle o start p) (report demangle o start' (renamed r p)).
Proof.
  intros Hs. unfold report. apply (orel_bind _ _ _ _ _ _ (build_r o)). intros b b' B. unfold finish. apply (orel_bind rel).
  - unfold filter_start. destruct start as [s|], start' as [s'|]; try contradiction; [|exact (br_g _ _ B)]. rewrite (br_indices _ _ B), (resolve_r _ s s' (br_keys _ _ B) Hs).
    destruct (resolve_start demangle (b_indices b) s); [apply grel_reachable|]; exact (br_g _ _ B).
  - intros g g' G. rewrite (br_info _ _ B), (br_amb _ _ B). apply (orel_bind _ _ _ _ _ _ (grel_max r M (b_info b) g g' G)). intros [h cs] [h' cs'] [H C]. cbn [fst snd] in H, C. subst cs'.
    apply (orel_bind rel); [apply grel_shorten; [intros n K; apply (kt_short _ _ _ kp n K) | exact H]|]. intros x y A. split; [exact A | reflexivity].
Qed.
End Build.
