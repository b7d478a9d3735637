(** Programs that differ in the names of their functions: proofs. *)
From Verif Require Import M_base M_stack M_graph M_analysis M_filter M_names M_thumb M_ty M_parse M_build M_run S_rename L_base L_names.

(** * Outcomes *)
Definition orel {A B} (R : A -> B -> Prop) (x : outcome A) (y : outcome B) : Prop :=
  match x, y with
  | Ret a, Ret b => R a b
  | Fail m, Fail n => m = n
  | Panic m, Panic n => m = n
  | Fuel, Fuel => True
  | _, _ => False
  end.
Lemma orel_bind {A B C D} (R : A -> B -> Prop) (Q : C -> D -> Prop) x y f g : orel R x y -> (forall a b, R a b -> orel Q (f a) (g b)) -> orel Q (bind x f) (bind y g).
Proof. destruct x, y; cbn; try contradiction; try (intros -> _; reflexivity); [intros H K; apply K; exact H | intros _ _; exact I]. Qed.
Lemma orel_eq {A} (x y : outcome A) : x = y -> orel eq x y.
Proof. intros <-. destruct x; cbn; auto. Qed.
Lemma orel_ofold {S S' X Y} (R : S -> S' -> Prop) (f : S -> X -> outcome S) (f' : S' -> Y -> outcome S') (h : X -> Y) l :
  (forall s s' x, In x l -> R s s' -> orel R (f s x) (f' s' (h x))) -> forall s s', R s s' -> orel R (ofold f l s) (ofold f' (map h l) s').
Proof.
  induction l as [|x l IH]; intros H s s' E; [exact E|]. cbn [ofold map]. apply (orel_bind R); [apply H; [left; reflexivity | exact E]|]. intros a b E'. apply IH; [intros ? ? ? I; apply H; right; exact I | exact E'].
Qed.

(** * Tables under a one-to-one renaming *)
Section Tables.
Variable r : str -> str.
Hypothesis inj : forall a b, r a = r b -> a = b.
Definition kmap {A} (m : list (str * A)) : list (str * A) := map (fun x => (r (fst x), snd x)) m.
Definition amap (m : list (str * str)) : list (str * str) := map (fun x => (r (fst x), r (snd x))) m.
Definition bmap {A} (m : list (A * str)) : list (A * str) := map (fun x => (fst x, r (snd x))) m.
Lemma r_eqb a b : str_eqb (r a) (r b) = str_eqb a b.
Proof. destruct (str_eqb_spec (r a) (r b)) as [E|N], (str_eqb_spec a b) as [E'|N']; try reflexivity; [destruct (N' (inj _ _ E)) | subst; contradiction]. Qed.
Lemma sget_k {A} (m : list (str * A)) k : sget (kmap m) (r k) = sget m k.
Proof. induction m as [|[a b] m IH]; [reflexivity|]. cbn [kmap map sget fst snd]. rewrite r_eqb. destruct (str_eqb a k); [reflexivity | exact IH]. Qed.
Lemma sget_a m k : sget (amap m) (r k) = option_map r (sget m k).
Proof. induction m as [|[a b] m IH]; [reflexivity|]. cbn [amap map sget fst snd]. rewrite r_eqb. destruct (str_eqb a k); [reflexivity | exact IH]. Qed.
Lemma sput_k {A} (m : list (str * A)) k v : sput (kmap m) (r k) v = kmap (sput m k v).
Proof. induction m as [|[a b] m IH]; [reflexivity|]. cbn [kmap map sput fst snd]. rewrite r_eqb. destruct (str_eqb a k); [reflexivity|]. cbn [map fst snd]. f_equal. exact IH. Qed.
Lemma sput_a m k v : sput (amap m) (r k) (r v) = amap (sput m k v).
Proof. induction m as [|[a b] m IH]; [reflexivity|]. cbn [amap map sput fst snd]. rewrite r_eqb. destruct (str_eqb a k); [reflexivity|]. cbn [map fst snd]. f_equal. exact IH. Qed.
Lemma shas_k {A} (m : list (str * A)) k : shas (kmap m) (r k) = shas m k.
Proof. unfold shas. rewrite sget_k. reflexivity. Qed.
Lemma smem_r k l : smem (r k) (map r l) = smem k l.
Proof. unfold smem. induction l as [|x l IH]; [reflexivity|]. cbn [map existsb]. rewrite r_eqb, IH. reflexivity. Qed.
Lemma sinsert_r l k : sinsert (map r l) (r k) = map r (sinsert l k).
Proof. unfold sinsert. rewrite smem_r. destruct (smem k l); [reflexivity | rewrite map_app; reflexivity]. Qed.
Lemma bput_r m (k : N) v : bput (bmap m) k (r v) = bmap (bput m k v).
Proof. induction m as [|[a b] m IH]; [reflexivity|]. cbn [bmap map bput fst snd]. destruct (k <? a)%N; [reflexivity|]. destruct (a =? k)%N; [reflexivity|]. cbn [map fst snd]. f_equal. exact IH. Qed.
Lemma bget_r m (k : N) : bget (bmap m) k = option_map r (bget m k).
Proof. induction m as [|[a b] m IH]; [reflexivity|]. cbn [bmap map bget fst snd]. destruct (a =? k)%N; [reflexivity | exact IH]. Qed.
End Tables.

(** * Graphs whose nodes have other names *)
Lemma F2_length {A B} (R : A -> B -> Prop) l l' : Forall2 R l l' -> length l = length l'.
Proof. induction 1; cbn [length]; congruence. Qed.
Section Graphs.
Variables (r : str -> str) (M : str -> Prop).
Definition same_node (nd nd' : node) : Prop := nd' = nd \/ (M (nname nd) /\ nd' = set_name nd (r (nname nd))).
Definition grel (g g' : graph node) : Prop := Forall2 same_node (gnodes g) (gnodes g') /\ gedges g' = gedges g.
Lemma same_local nd nd' : same_node nd nd' -> nlocal nd' = nlocal nd /\ nmax nd' = nmax nd.
Proof. intros [->|[_ ->]]; split; reflexivity. Qed.
Lemma grel_count g g' : grel g g' -> node_count g' = node_count g.
Proof. intros [F _]. unfold node_count. symmetry. exact (F2_length _ _ _ F). Qed.
Lemma grel_length g g' : grel g g' -> length (gnodes g') = length (gnodes g).
Proof. intros G. exact (grel_count _ _ G). Qed.
Lemma grel_add g g' nd nd' : grel g g' -> same_node nd nd' -> grel (fst (add_node g nd)) (fst (add_node g' nd')) /\ snd (add_node g' nd') = snd (add_node g nd).
Proof. intros [F E] S. split; [split; [apply Forall2_app; [exact F | constructor; [exact S | constructor]] | exact E] | cbn [add_node snd]; symmetry; exact (F2_length _ _ _ F)]. Qed.
Lemma grel_edge g g' u v : grel g g' -> grel (add_edge g u v) (add_edge g' u v).
Proof. intros [F E]. split; [exact F|]. cbn [add_edge gedges]. rewrite E. reflexivity. Qed.
Lemma grel_out g g' v : grel g g' -> out_nbrs g' v = out_nbrs g v.
Proof. intros [_ E]. unfold out_nbrs. rewrite E. reflexivity. Qed.
Lemma grel_in g g' v : grel g g' -> in_nbrs g' v = in_nbrs g v.
Proof. intros [_ E]. unfold in_nbrs. rewrite E. reflexivity. Qed.
Lemma grel_nth g g' i : grel g g' -> match nth_error (gnodes g) i, nth_error (gnodes g') i with Some nd, Some nd' => same_node nd nd' | None, None => True | _, _ => False end.
Proof. intros [F _]. revert i. induction F as [|x y l l' S F IH]; intros [|i]; cbn [nth_error]; try exact I; [exact S | apply IH]. Qed.
Lemma upd_rel l l' i f : Forall2 same_node l l' -> (forall nd nd', same_node nd nd' -> same_node (f nd) (f nd')) -> Forall2 same_node (upd_nth l i f) (upd_nth l' i f).
Proof. intros F H. revert i. induction F as [|x y l l' S F IH]; intros [|i]; cbn [upd_nth]; constructor; auto. Qed.
Lemma same_set_max nd nd' m : same_node nd nd' -> same_node (set_max nd m) (set_max nd' m).
Proof. intros [->|[K ->]]; [left; reflexivity | right; split; [exact K | reflexivity]]. Qed.
Lemma same_set_local nd nd' m : same_node nd nd' -> same_node (set_local nd m) (set_local nd' m).
Proof. intros [->|[K ->]]; [left; reflexivity | right; split; [exact K | reflexivity]]. Qed.
Lemma grel_set_max g g' i m : grel g g' -> grel (set_node_max g i m) (set_node_max g' i m).
Proof. intros [F E]. split; [apply upd_rel; [exact F | intros; apply same_set_max; assumption] | exact E]. Qed.
Lemma grel_set_local g g' i m : grel g g' -> grel (set_node_local g i m) (set_node_local g' i m).
Proof. intros [F E]. split; [apply upd_rel; [exact F | intros; apply same_set_local; assumption] | exact E]. Qed.
Lemma grel_get_local g g' i : grel g g' -> get_local g' i = get_local g i.
Proof. intros G. pose proof (grel_nth g g' i G) as K. unfold get_local. destruct (nth_error (gnodes g) i), (nth_error (gnodes g') i); try contradiction; [|reflexivity]. rewrite (proj1 (same_local _ _ K)). reflexivity. Qed.
Lemma grel_get_max g g' i : grel g g' -> get_max g' i = get_max g i.
Proof. intros G. pose proof (grel_nth g g' i G) as K. unfold get_max. destruct (nth_error (gnodes g) i), (nth_error (gnodes g') i); try contradiction; [|reflexivity]. rewrite (proj2 (same_local _ _ K)). reflexivity. Qed.
Lemma map_outcome_ext {A B} (f f' : A -> outcome B) l : (forall x, f x = f' x) -> map_outcome f l = map_outcome f' l.
Proof. intros H. induction l as [|x l IH]; [reflexivity|]. cbn [map_outcome]. rewrite H, IH. reflexivity. Qed.
Lemma grel_fold {X} (f f' : graph node -> X -> graph node) l : (forall g g' x, grel g g' -> grel (f g x) (f' g' x)) -> forall g g', grel g g' -> grel (fold_left f l g) (fold_left f' l g').
Proof. intros H. induction l as [|x l IH]; intros g g' G; [exact G|]. cbn [fold_left]. apply IH, H, G. Qed.

(** ** The passes *)
Lemma grel_single g g' v : grel g g' -> orel grel (process_single g v) (process_single g' v).
Proof.
  intros G. unfold process_single. rewrite (grel_out _ _ v G), (grel_get_local _ _ v G), (map_outcome_ext (get_max g') (get_max g)) by (intros x; apply grel_get_max; exact G).
  apply (orel_bind eq); [apply orel_eq; reflexivity|]. intros ns _ <-. apply (orel_bind eq); [apply orel_eq; reflexivity|]. intros l _ <-. apply grel_set_max. exact G.
Qed.
Lemma grel_cycle g g' scc : grel g g' -> orel grel (process_cycle g scc) (process_cycle g' scc).
Proof.
  intros G. unfold process_cycle. rewrite (map_outcome_ext (get_local g') (get_local g)) by (intros x; apply grel_get_local; exact G). apply (orel_bind eq); [apply orel_eq; reflexivity|]. intros ls _ <-.
  destruct (max_of _) as [m|]; [|reflexivity]. rewrite (map_outcome_ext (get_max g') (get_max g)) by (intros x; apply grel_get_max; exact G).
  rewrite (flat_map_ext _ _ (fun x => grel_out g g' x G)). apply (orel_bind eq); [apply orel_eq; reflexivity|]. intros ns _ <-. cbn [orel]. apply grel_fold; [|exact G]. intros a a' x A. apply grel_set_max. exact A.
Qed.
Definition crel (x y : graph node * list (list nat)) : Prop := grel (fst x) (fst y) /\ snd y = snd x.
Lemma grel_sccs l : forall g g' cs, grel g g' -> orel crel (process_sccs g l cs) (process_sccs g' l cs).
Proof.
  induction l as [|scc l IH]; intros g g' cs G; [split; [exact G | reflexivity]|]. cbn [process_sccs]. destruct scc as [|v scc]; [reflexivity|]. unfold is_a_cycle. rewrite (grel_out _ _ v G).
  destruct (_ || _)%bool; [apply (orel_bind grel); [apply grel_cycle; exact G | intros a b A; apply IH; exact A] | apply (orel_bind grel); [apply grel_single; exact G | intros a b A; apply IH; exact A]].
Qed.
Lemma grel_topo l : forall g g', grel g g' -> orel grel (process_topo g l) (process_topo g' l).
Proof. induction l as [|v l IH]; intros g g' G; [exact G|]. cbn [process_topo]. apply (orel_bind grel); [apply grel_single; exact G | intros a b A; apply IH; exact A]. Qed.
(** The traversals see edges and the number of nodes only. *)
Lemma shape {A} (g g' : graph A) : gedges g' = gedges g -> node_count g' = node_count g ->
  kosaraju_scc g' = kosaraju_scc g /\ topo_reversed g' = topo_reversed g /\ is_cyclic_directed g' = is_cyclic_directed g /\ trav_fuel g' = trav_fuel g /\ out_nbrs g' = out_nbrs g.
Proof.
  intros E C. assert (I : in_nbrs g' = in_nbrs g) by (unfold in_nbrs; rewrite E; reflexivity). assert (O : out_nbrs g' = out_nbrs g) by (unfold out_nbrs; rewrite E; reflexivity).
  assert (F : trav_fuel g' = trav_fuel g) by (unfold trav_fuel; rewrite E, C; reflexivity). assert (N : node_ids g' = node_ids g) by (unfold node_ids; rewrite C; reflexivity).
  unfold kosaraju_scc, topo_reversed, is_cyclic_directed. rewrite I, O, F, N. repeat split.
Qed.
Lemma grel_max info g g' : grel g g' -> orel crel (max_stack info g) (max_stack info g').
Proof.
  intros G. destruct (shape g g' (proj2 G) (grel_count _ _ G)) as [K [T [C _]]]. unfold max_stack. destruct (negb info); [split; [exact G | reflexivity]|]. rewrite C.
  destruct (is_cyclic_directed g) as [[|]|]; [unfold cyclic_pass; rewrite K; destruct (kosaraju_scc g); [apply grel_sccs; exact G | exact I] | | exact I].
  unfold acyclic_pass. rewrite T. destruct (topo_reversed g); [|exact I]. apply (orel_bind grel); [apply grel_topo; exact G|]. intros a b A. split; [exact A | reflexivity].
Qed.
(** ** The start point *)
Definition srel (x y : graph node * list (nat * nat)) : Prop := grel (fst x) (fst y) /\ snd y = snd x.
Lemma grel_intern g g' x y i : grel g g' -> srel x y -> orel (fun a b => srel (fst a) (fst b) /\ snd b = snd a) (intern g x i) (intern g' y i).
Proof.
  intros G [H E]. destruct x as [h m], y as [h' m']. cbn [fst snd] in *. subst m'. unfold intern. destruct (nget m i) as [k|]; [split; [split; [exact H | reflexivity] | reflexivity]|].
  pose proof (grel_nth g g' i G) as K. destruct (nth_error (gnodes g) i) as [nd|], (nth_error (gnodes g') i) as [nd'|]; try contradiction; [|reflexivity].
  destruct (grel_add h h' nd nd' H K) as [A B]. destruct (add_node h nd) as [h1 i1], (add_node h' nd') as [h1' i1']. cbn [fst snd] in *. subst i1'. split; [split; [exact A | reflexivity] | reflexivity].
Qed.
Lemma grel_callees g g' c l : grel g g' -> forall x y, srel x y -> orel srel (copy_callees g c l x) (copy_callees g' c l y).
Proof.
  intros G. induction l as [|k l IH]; intros x y S; [exact S|]. cbn [copy_callees]. apply (orel_bind _ _ _ _ _ _ (grel_intern g g' x y k G S)). intros [[h m] i] [[h' m'] i'] [[H E] E']. cbn [fst snd] in *. subst m' i'.
  apply IH. split; [apply grel_edge; exact H | reflexivity].
Qed.
Lemma grel_callers g g' l : grel g g' -> forall x y, srel x y -> orel srel (copy_callers g l x) (copy_callers g' l y).
Proof.
  intros G. induction l as [|k l IH]; intros x y S; [exact S|]. cbn [copy_callers]. apply (orel_bind _ _ _ _ _ _ (grel_intern g g' x y k G S)). intros [[h m] i] [[h' m'] i'] [[H E] E']. cbn [fst snd] in *. subst m' i'.
  rewrite (grel_out _ _ k G). apply (orel_bind srel); [apply grel_callees; [exact G | split; [exact H | reflexivity]]|]. intros a b A. apply IH. exact A.
Qed.
Lemma grel_reachable g g' i : grel g g' -> orel grel (reachable_subgraph g i) (reachable_subgraph g' i).
Proof.
  intros G. destruct (shape g g' (proj2 G) (grel_count _ _ G)) as [_ [_ [_ [F O]]]]. unfold reachable_subgraph. rewrite F, O. destruct (dfs_run _ _ _ _ _) as [[cs d]|]; [|exact I].
  apply (orel_bind srel); [apply grel_callers; [exact G | split; [split; [constructor | reflexivity] | reflexivity]]|]. intros [h m] [h' m'] [H _]. exact H.
Qed.
(** ** Indirect calls *)
Lemma grel_indirect o untyped fmts void g g' e : grel g g' -> grel (add_indirect o untyped fmts void g e) (add_indirect o untyped fmts void g' e).
Proof.
  intros G. destruct e as [sig ind]. unfold add_indirect. destruct (negb (ic_called ind)); [exact G|]. cbv zeta.
  set (nd := new_node (show_sig (canonical_sig void sig) ++ lit "*") (Some 0%N) true). destruct (grel_add g g' nd nd G (or_introl eq_refl)) as [A B]. destruct (add_node g nd) as [h i], (add_node g' nd) as [h' i']. cbn [fst snd] in *. subst i'.
  assert (A2 : grel (fold_left (fun g caller => add_edge g caller i) (o_callers o sig (ic_callers ind)) h) (fold_left (fun g caller => add_edge g caller i) (o_callers o sig (ic_callers ind)) h')) by (apply grel_fold; [intros; apply grel_edge; assumption | exact A]).
  apply grel_fold; [intros; apply grel_edge; assumption|]. destruct untyped; [|exact A2]. set (q := new_node (lit "?") None false).
  destruct (grel_add _ _ q q A2 (or_introl eq_refl)) as [C D]. destruct (add_node (fold_left _ _ h) q) as [k j], (add_node (fold_left _ _ h') q) as [k' j']. cbn [fst snd] in *. subst j'. apply grel_edge. exact C.
Qed.
Lemma grel_indirects o untyped fmts m g g' : grel g g' -> grel (indirect_edges o untyped fmts m g) (indirect_edges o untyped fmts m g').
Proof. intros G. unfold indirect_edges. apply grel_fold; [intros; apply grel_indirect; assumption | exact G]. Qed.
(** ** Short names *)
Variable demangle : str -> str.
Hypothesis Ks : forall n, M n -> dehash (demangle (r n)) = dehash (demangle n).
Lemma same_shorten am nd nd' : same_node nd nd' -> orel same_node (shorten_node demangle am nd) (shorten_node demangle am nd').
Proof.
  intros S. assert (D : dehash (demangle (nname nd')) = dehash (demangle (nname nd))) by (destruct S as [->|[K ->]]; [reflexivity | apply Ks; exact K]).
  unfold shorten_node. rewrite D. apply (orel_bind eq); [apply orel_eq; reflexivity|]. intros [s|] _ <-; [|exact S]. destruct (sget am s) as [n|]; [|reflexivity]. destruct (Nat.eqb n 1); [|exact S].
  left. destruct S as [->|[_ ->]]; reflexivity.
Qed.
Lemma same_shortens am l l' : Forall2 same_node l l' -> orel (Forall2 same_node) (shorten_nodes demangle am l) (shorten_nodes demangle am l').
Proof.
  induction 1 as [|x y l l' S F IH]; [constructor|]. cbn [shorten_nodes]. apply (orel_bind same_node); [apply same_shorten; exact S|]. intros a b A. apply (orel_bind (Forall2 same_node)); [exact IH|]. intros c d C. constructor; assumption.
Qed.
Lemma grel_shorten am g g' : grel g g' -> orel grel (shorten demangle am g) (shorten demangle am g').
Proof. intros [F E]. unfold shorten. apply (orel_bind (Forall2 same_node)); [apply same_shortens; exact F|]. intros a b A. split; [exact A | exact E]. Qed.
End Graphs.
