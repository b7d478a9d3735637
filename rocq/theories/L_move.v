(** The tool does not depend on where the program is. *)
From Verif Require Import M_base M_stack M_graph M_analysis M_filter M_names M_thumb M_ty M_parse M_build M_run M_log M_wrapper M_driver M_cli S_driver S_graph S_build S_move L_base L_log X_build.
From Coq Require Import Lia ZArith.
Local Open Scope N_scope.
Local Open Scope list_scope.

(** * Tables *)
Lemma bput_up {A} d (m : list (N * A)) k v : bput (map (up d) m) (k + d) v = map (up d) (bput m k v).
Proof.
  induction m as [|[a b] m IH]; [reflexivity|]. cbn [map bput up fst snd].
  destruct (N.ltb_spec k a) as [L|L]; destruct (N.ltb_spec (k + d) (a + d)) as [L'|L']; try lia; [reflexivity|].
  destruct (N.eqb_spec a k) as [E|E]; destruct (N.eqb_spec (a + d) (k + d)) as [E'|E']; try lia; [reflexivity|]. cbn [map up fst snd]. rewrite IH. reflexivity.
Qed.
Lemma bget_up {A} d (m : list (N * A)) k : bget (map (up d) m) (k + d) = bget m k.
Proof.
  induction m as [|[a b] m IH]; [reflexivity|]. cbn [map bget up fst snd]. destruct (N.eqb_spec a k) as [E|E]; destruct (N.eqb_spec (a + d) (k + d)) as [E'|E']; try lia; [reflexivity | exact IH].
Qed.
Lemma bget_None {A} (m : list (N * A)) k : (forall x, In x m -> fst x <> k) -> bget m k = None.
Proof.
  induction m as [|[a b] m IH]; intros H; [reflexivity|]. cbn [bget]. destruct (N.eqb_spec a k) as [E|E]; [destruct (H (a, b) (or_introl eq_refl) E)|]. apply IH. intros x Hx. apply H. right. exact Hx.
Qed.

(** * Tags *)
Lemma bsearch_up d tags a : forall fuel l r, bsearch fuel (map (up d) tags) (a + d) l r = bsearch fuel tags a l r.
Proof.
  induction fuel as [|f IH]; intros l r; [reflexivity|]. cbn [bsearch]. destruct (Nat.ltb l r); [|reflexivity]. rewrite nth_error_map.
  destruct (nth_error tags (l + (r - l) / 2)%nat) as [[b t]|]; [|reflexivity]. cbn [option_map up fst snd].
  destruct (N.eqb_spec b a) as [E|E]; destruct (N.eqb_spec (b + d) (a + d)) as [E'|E']; try lia; [reflexivity|].
  destruct (N.ltb_spec b a) as [L|L]; destruct (N.ltb_spec (b + d) (a + d)) as [L'|L']; try lia; apply IH.
Qed.
Lemma find_up d tags a : find_tag (map (up d) tags) (a + d) = find_tag tags a.
Proof. unfold find_tag. rewrite map_length. apply bsearch_up. Qed.
Lemma mod_up x y d : x < 2 ^ 32 -> y < 2 ^ 32 -> x + d < 2 ^ 32 -> y + d < 2 ^ 32 -> (x + d + 2 ^ 32 - (y + d)) mod 2 ^ 32 = (x + 2 ^ 32 - y) mod 2 ^ 32.
Proof. intros. f_equal. change (2 ^ 32) with 4294967296 in *. lia. Qed.
Lemma at_tag_up d tags a : (forall x t, In (x, t) tags -> x + d < 2 ^ 32) -> a + d < 2 ^ 32 -> at_tag (map (up d) tags) (a + d) = at_tag tags a.
Proof.
  intros R La. unfold at_tag. rewrite find_up. destruct (find_tag tags a) as [[k|]| | |]; try reflexivity. cbn [bind]. rewrite !nth_error_map.
  destruct (nth_error tags k) as [[x [|]]|]; [|reflexivity ..]; cbn [option_map up fst snd]; try reflexivity.
  destruct (nth_error tags (S k)) as [[y [|]]|] eqn:E; cbn [option_map up fst snd]; try reflexivity.
  apply nth_error_In, R in E. rewrite mod_up by lia. reflexivity.
Qed.
Lemma code_size_up d tags a sym : (forall x t, In (x, t) tags -> x + d < 2 ^ 32) -> code_size (map (up d) tags) (a + d) sym = code_size tags a sym.
Proof.
  intros R. unfold code_size. cbv zeta. destruct (_ =? 0); [|reflexivity]. rewrite find_up. destruct (find_tag tags a) as [[k|]| | |]; try reflexivity. cbn [bind]. rewrite !nth_error_map.
  destruct (nth_error tags k) as [[x [|]]|] eqn:E1; [reflexivity | | reflexivity]; cbn [option_map up fst snd].
  destruct (nth_error tags (S k)) as [[y [|]]|] eqn:E; cbn [option_map up fst snd]; try reflexivity.
  apply nth_error_In, R in E. apply nth_error_In, R in E1. rewrite mod_up by lia. reflexivity.
Qed.
Lemma aloop_up d v7 a tags len : (forall x t, In (x, t) tags -> x + d < 2 ^ 32) ->
  forall n hs i skip s, (length hs <= n)%nat -> a + d + 2 * (i + N.of_nat (length hs)) <= 2 ^ 32 ->
  aloop v7 (a + d) (map (up d) tags) len hs i skip s = aloop v7 a tags len hs i skip s.
Proof.
  intros R. induction n as [|n IH]; intros hs i skip s Ln L; (destruct hs as [|first rest]; [reflexivity|]); cbn [length] in *; [lia|]. cbn [aloop].
  destruct (skip =? 0); [|apply IH; lia].
  rewrite !N.mod_small by lia. replace (a + d + 2 * i) with (a + 2 * i + d) by lia. rewrite at_tag_up by (assumption || lia).
  destruct (at_tag tags (a + 2 * i)) as [[|k|]| | |]; try reflexivity; cbn [bind]; [|apply IH; lia].
  destruct (M_thumb.chain v7 first rules16) as [[k|]| | |]; try reflexivity; cbn [bind].
  - destruct (exec16 k first (Z.of_N i) len s); try reflexivity. cbn [bind]. apply IH; lia.
  - destruct rest as [|second rest']; [reflexivity|]. destruct (exec32 v7 first second (Z.of_N i) len s); try reflexivity. cbn [bind]. cbn [length] in *. apply IH; lia.
Qed.
Lemma chunks2_length s : (2 * length (chunks2 s) <= length s)%nat.
Proof.
  assert (H : forall n s, (length s <= n)%nat -> (2 * length (chunks2 s) <= length s)%nat).
  { induction n as [|n IH]; intros [|a [|b s']] L; cbn [chunks2 length] in *; try lia. specialize (IH s' ltac:(lia)). lia. }
  exact (H (length s) s (le_n _)).
Qed.
Lemma analyze_up d bytes a v7 tags : (forall x t, In (x, t) tags -> x + d < 2 ^ 32) -> a + d + N.of_nat (length bytes) <= 2 ^ 32 ->
  analyze bytes (a + d) v7 (map (up d) tags) = analyze bytes a v7 tags.
Proof. intros R L. unfold analyze. pose proof (chunks2_length bytes). apply (aloop_up d v7 a tags _ R (length (chunks2 bytes))); lia. Qed.

(** * Functions found by address *)
Lemma lookup_up {A} d (m : list (N * A)) z M : (0 < M)%Z -> (forall x, In x m -> (Z.of_N (fst x + d) < M)%Z) ->
  bget (map (up d) m) (Z.to_N ((z + Z.of_N d) mod M)) = bget m (Z.to_N (z mod M)).
Proof.
  intros HM R. pose proof (Z.mod_pos_bound z M HM) as B. destruct (Z.lt_ge_cases (z mod M + Z.of_N d) M) as [L|L].
  - assert (K : ((z + Z.of_N d) mod M = z mod M + Z.of_N d)%Z) by (rewrite <- Z.add_mod_idemp_l by lia; apply Z.mod_small; lia). rewrite K.
    rewrite Z2N.inj_add, N2Z.id by lia. apply bget_up.
  - rewrite (bget_None m); [|intros x Hx E; specialize (R x Hx); lia]. apply bget_None. intros x Hx. apply in_map_iff in Hx. destruct Hx as [y [<- Hy]]. specialize (R y Hy). cbn [up fst]. intros E.
    assert (Hd : (Z.of_N d < M)%Z) by lia.
    assert (K : ((z + Z.of_N d) mod M = z mod M + Z.of_N d - M)%Z).
    { rewrite <- Z.add_mod_idemp_l by lia. symmetry. apply Z.mod_unique with 1%Z; lia. }
    rewrite K in E. lia.
Qed.
Lemma node_at_up d ix m z M : (0 < M)%Z -> (forall x, In x m -> (Z.of_N (fst x + d) < M)%Z) ->
  node_at ix (map (up d) m) (Z.to_N ((z + Z.of_N d) mod M)) = node_at ix m (Z.to_N (z mod M)).
Proof. intros HM R. unfold node_at. rewrite lookup_up by assumption. reflexivity. Qed.
Definition low {A} (d : N) (m : list (N * A)) : Prop := forall x, In x m -> fst x + d < 2 ^ 32.
Lemma add_bl_up d ix m caller a x off : low d m -> add_bl ix (map (up d) m) caller (a + d) x off = add_bl ix m caller a x off.
Proof.
  intros R. unfold add_bl, bl_addr, as_u64. replace (Z.of_N (a + d) + off)%Z with (Z.of_N a + off + Z.of_N d)%Z by lia. rewrite node_at_up; [reflexivity | lia|].
  intros y Hy. specialize (R y Hy). change (2 ^ 32) with 4294967296 in R. change (2 ^ 64)%Z with 18446744073709551616%Z. lia.
Qed.
Lemma add_b_up d ix m caller a size x off : low d m -> a + d + size < 2 ^ 32 -> add_b ix (map (up d) m) caller (a + d) size x off = add_b ix m caller a size x off.
Proof.
  intros R L. unfold add_b. cbv zeta. unfold b_addr. rewrite !N.mod_small by lia. replace (Z.of_N (a + d) + off)%Z with (Z.of_N a + off + Z.of_N d)%Z by lia.
  rewrite node_at_up; [|lia|].
  2:{ intros y Hy. specialize (R y Hy). change (2 ^ 32) with 4294967296 in R. change (2 ^ 32)%Z with 4294967296%Z. lia. }
  set (T := ((Z.of_N a + off) mod 2 ^ 32)%Z). set (T' := ((Z.of_N a + off + Z.of_N d) mod 2 ^ 32)%Z).
  assert (H : ((a + d <=? Z.to_N T') && (Z.to_N T' <? a + d + size))%bool = ((a <=? Z.to_N T) && (Z.to_N T <? a + size))%bool).
  { pose proof (Z.mod_pos_bound (Z.of_N a + off) (2 ^ 32) ltac:(lia)) as B. fold T in B. pose proof (Z.mod_pos_bound (Z.of_N a + off + Z.of_N d) (2 ^ 32) ltac:(lia)) as B'. fold T' in B'.
    assert (K : T' = (T + Z.of_N d)%Z \/ T' = (T + Z.of_N d - 2 ^ 32)%Z).
    { unfold T'. rewrite <- Z.add_mod_idemp_l by lia. fold T. change (2 ^ 32) with 4294967296 in L. change (2 ^ 32)%Z with 4294967296%Z in *. destruct (Z.lt_ge_cases (T + Z.of_N d) 4294967296).
      - left. apply Z.mod_small. lia.
      - right. symmetry. apply Z.mod_unique with 1%Z; lia. }
    change (2 ^ 32) with 4294967296 in L. change (2 ^ 32)%Z with 4294967296%Z in *.
    destruct (N.leb_spec (a + d) (Z.to_N T')); destruct (N.ltb_spec (Z.to_N T') (a + d + size)); destruct (N.leb_spec a (Z.to_N T)); destruct (N.ltb_spec (Z.to_N T) (a + size)); cbn [andb]; try reflexivity; lia. }
  rewrite H. reflexivity.
Qed.
Lemma ofold_ext {S X} (f g : S -> X -> outcome S) l : (forall s x, In x l -> f s x = g s x) -> forall s, ofold f l s = ofold g l s.
Proof. induction l as [|x l IH]; intros H s; [reflexivity|]. cbn [ofold]. rewrite (H s x (or_introl eq_refl)). destruct (g s x); try reflexivity. cbn [bind]. apply IH. intros s' y Hy. apply H. right. exact Hy. Qed.
Lemma ofold_map {S X Y} (f : S -> Y -> outcome S) (h : X -> Y) l : forall s, ofold f (map h l) s = ofold (fun s x => f s (h x)) l s.
Proof. induction l as [|x l IH]; intros s; [reflexivity|]. cbn [map ofold]. destruct (f s (h x)); try reflexivity. cbn [bind]. apply IH. Qed.

(** * The graph *)
Definition n_up (d : N) (n : nodes) : nodes :=
  mkNodes (n_g n) (n_indices n) (n_aliases n) (map (up d) (n_addr2name n)) (n_ambiguous n) (n_indirects n) (n_fmts n) (n_info n) (n_untyped n).
Definition omapo {A B} (f : A -> B) (x : outcome A) : outcome B := let* a := x in Ret (f a).
Lemma add_real_up demangle d p s x : add_real demangle (moved d p) (n_up d s) (up d x) = omapo (n_up d) (add_real demangle p s x).
Proof.
  unfold add_real, omapo. cbn [moved pg_sizes pg_defines pg_declares n_up n_g n_indices n_aliases n_addr2name n_ambiguous n_indirects n_fmts n_info n_untyped up fst snd]. cbv zeta.
  destruct (canonical (pg_sizes p) (untagged (snd x))) as [c| | |]; try reflexivity. cbn [bind]. destruct (note_name demangle (n_ambiguous s) c) as [am| | |]; try reflexivity. cbn [bind].
  rewrite bput_up. destruct (add_node (n_g s) _) as [g idx]. destruct (def_of (pg_defines p) (untagged (snd x))); [reflexivity|]. destruct (decl_of (pg_declares p) (untagged (snd x))); reflexivity.
Qed.
Lemma real_nodes_up demangle d p : real_nodes demangle (moved d p) = omapo (n_up d) (real_nodes demangle p).
Proof.
  unfold real_nodes. cbn [moved pg_defined]. rewrite ofold_map.
  assert (H : forall l s, ofold (fun s x => add_real demangle (moved d p) s (up d x)) l (n_up d s) = omapo (n_up d) (ofold (add_real demangle p) l s)).
  { induction l as [|x l IH]; intros s; [reflexivity|]. cbn [ofold]. rewrite add_real_up. unfold omapo. destruct (add_real demangle p s x) as [s'| | |]; try reflexivity. cbn [bind]. apply IH. }
  exact (H (pg_defined p) nodes0).
Qed.
Lemma bput_in {A} (m : list (N * A)) k v x : In x (bput m k v) -> In x m \/ fst x = k.
Proof.
  induction m as [|[a b] m IH]; cbn [bput]; [intros [<-|[]]; right; reflexivity|]. destruct (k <? a); [intros [<-|H]; [right; reflexivity | left; exact H]|].
  destruct (N.eqb_spec a k) as [->|_]; [intros [<-|H]; [right; reflexivity | left; right; exact H]|]. intros [<-|H]; [left; left; reflexivity|]. destruct (IH H) as [K|K]; [left; right; exact K | right; exact K].
Qed.
Lemma real_nodes_low demangle d p n : (forall a s, In (a, s) (pg_defined p) -> a + d < 2 ^ 32) -> real_nodes demangle p = Ret n -> low d (n_addr2name n).
Proof.
  intros R. unfold real_nodes.
  assert (H : forall l s, (forall x, In x l -> fst x + d < 2 ^ 32) -> low d (n_addr2name s) -> ofold (add_real demangle p) l s = Ret n -> low d (n_addr2name n)).
  { induction l as [|x l IH]; intros s Hl Hs E; cbn [ofold] in E; [injection E as <-; exact Hs|]. apply bind_Ret in E. destruct E as [s' [E1 E2]]. apply (IH s'); [intros y Hy; apply Hl; right; exact Hy | | exact E2].
    assert (K : n_addr2name s' = bput (n_addr2name s) (fst x) (match canonical (pg_sizes p) (untagged (snd x)) with Ret c => c | _ => [] end)).
    { unfold add_real in E1. cbv zeta in E1. destruct (canonical (pg_sizes p) (untagged (snd x))) as [c| | |]; try discriminate E1. cbn [bind] in E1. apply bind_Ret in E1. destruct E1 as [am [_ E1]].
      destruct (add_node (n_g s) _) as [g idx]. destruct (def_of (pg_defines p) (untagged (snd x))); [injection E1 as <-; reflexivity|]. destruct (decl_of (pg_declares p) (untagged (snd x))); injection E1 as <-; reflexivity. }
    rewrite K. intros y Hy. apply bput_in in Hy. destruct Hy as [Hy | ->]; [exact (Hs y Hy) | apply Hl; left; reflexivity]. }
  intros E. apply (H (pg_defined p) nodes0); [intros [a s] Hx; exact (R a s Hx) | intros x [] | exact E].
Qed.
Lemma exec_code_up demangle d p n e stext text x s : room d p -> real_nodes demangle p = Ret n -> pg_text p = Some (stext, text) -> In s (pg_defined p) ->
  exec_code (moved d p) (n_up d n) e (stext + d) text x (up d s) = exec_code p n e stext text x s.
Proof.
  intros [Rd Rt Rx] N0 T Hs. pose proof (real_nodes_low demangle d p n Rd N0) as Lo. specialize (Rx _ _ T). destruct s as [a sym]. specialize (Rd a sym Hs).
  unfold exec_code. cbn [moved pg_tags pg_target n_up n_aliases n_addr2name up fst snd]. cbv zeta. rewrite (N.mod_small (a + d)), (N.mod_small a) by lia.
  destruct (sy_names sym) as [|name names]; [reflexivity|]. destruct (sget (n_aliases n) name) as [c|]; [|reflexivity]. rewrite code_size_up by exact Rt.
  destruct (code_size (pg_tags p) a sym) as [size| | |]; try reflexivity. cbn [bind]. rewrite mod_up by lia.
  unfold slice. destruct (N.leb_spec ((a + 2 ^ 32 - stext) mod 2 ^ 32 + size) (N.of_nat (length text))) as [Ls|Ls]; [|reflexivity]. cbn [bind].
  assert (Fit : a + d + size < 2 ^ 32).
  { change (2 ^ 32) with 4294967296 in *. destruct (N.le_gt_cases stext a) as [La|La].
    - replace (a + 4294967296 - stext) with (a - stext + 1 * 4294967296) in Ls by lia. rewrite N.mod_add, N.mod_small in Ls by lia. lia.
    - rewrite N.mod_small in Ls by lia. lia. }
  rewrite analyze_up; [|exact Rt | rewrite firstn_length; lia].
  match goal with |- context [analyze ?b ?y ?v ?t] => destruct (analyze b y v t) as [an| | |] end; try reflexivity. cbn [bind].
  destruct (sget (e_indices e) c) as [caller|]; [|reflexivity]. destruct x as [g seen].
  destruct (get_local g caller) as [l| | |]; try reflexivity. cbn [bind]. match goal with |- context [settle_local ?p1 ?p2 ?p3 ?p4] => destruct (settle_local p1 p2 p3 p4) as [l'| | |] end; try reflexivity. cbn [bind].
  match goal with |- bind ?u _ = bind ?v _ => assert (E : u = v) by (apply ofold_ext; intros; apply add_bl_up; exact Lo); rewrite E; destruct v as [y| | |] end; try reflexivity. cbn [bind].
  apply ofold_ext. intros; apply add_b_up; [exact Lo | exact Fit].
Qed.
Lemma machine_edges_up demangle d p n e : (is_thumb (pg_target p) = true -> room d p) -> real_nodes demangle p = Ret n ->
  machine_edges (moved d p) (n_up d n) e = machine_edges p n e.
Proof.
  intros R N0. unfold machine_edges. cbn [moved pg_target pg_text pg_defined]. destruct (is_thumb (pg_target p)); [|reflexivity]. specialize (R eq_refl).
  destruct (pg_text p) as [[stext text]|] eqn:T; [|reflexivity]. cbn [option_map up fst snd]. rewrite ofold_map. pose proof (rm_text _ _ R _ _ T) as L. rewrite (N.mod_small (stext + d)), (N.mod_small stext) by lia.
  match goal with |- bind ?u _ = bind ?v _ => assert (E : u = v) by (apply ofold_ext; intros; eapply exec_code_up; eassumption); rewrite E; reflexivity end.
Qed.
Theorem build_up demangle o d p : (is_thumb (pg_target p) = true -> room d p) -> build demangle o (moved d p) = build demangle o p.
Proof.
  intros R. unfold build. cbn [moved pg_defines]. destruct (default_methods demangle (map fst (pg_defines p))); try reflexivity. cbn [bind]. rewrite real_nodes_up. unfold omapo.
  destruct (real_nodes demangle p) as [n| | |] eqn:N0; try reflexivity. cbn [bind].
  change (ir_edges (moved d p) (n_up d n)) with (ir_edges p n). destruct (ir_edges p n) as [e| | |]; try reflexivity. cbn [bind].
  rewrite (machine_edges_up demangle) by assumption. reflexivity.
Qed.

(** * The messages *)
Definition lmap {A B} (f : A -> B) (x : lg A) : lg B := (fst x, omapo f (snd x)).
Lemma lfold_ext {S X} (f g : S -> X -> lg S) l : (forall s x, In x l -> f s x = g s x) -> forall s, lfold f l s = lfold g l s.
Proof.
  induction l as [|x l IH]; intros H s; [reflexivity|]. cbn [lfold]. rewrite (H s x (or_introl eq_refl)). unfold lbind. destruct (snd (g s x)); try reflexivity.
  rewrite IH; [reflexivity | intros s' y Hy; apply H; right; exact Hy].
Qed.
Lemma lfold_map {S X Y} (f : S -> Y -> lg S) (h : X -> Y) l : forall s, lfold f (map h l) s = lfold (fun s x => f s (h x)) l s.
Proof. induction l as [|x l IH]; intros s; [reflexivity|]. cbn [map lfold]. unfold lbind. destruct (snd (f s (h x))); try reflexivity. rewrite IH. reflexivity. Qed.
Lemma lbind_ext {A B} (x : lg A) (f g : A -> lg B) : (forall a, snd x = Ret a -> f a = g a) -> lbind x f = lbind x g.
Proof. intros H. unfold lbind. destruct (snd x); try reflexivity. rewrite (H _ eq_refl). reflexivity. Qed.
Lemma lbind_lmap {A B C} (h : A -> B) (x : lg A) (f : B -> lg C) : lbind (lmap h x) f = lbind x (fun a => f (h a)).
Proof. unfold lbind, lmap, omapo. cbn [fst snd]. destruct (snd x); reflexivity. Qed.
Lemma lmap_lbind {A B C} (h : B -> C) (x : lg A) (f : A -> lg B) : lmap h (lbind x f) = lbind x (fun a => lmap h (f a)).
Proof. unfold lbind, lmap, omapo. destruct (snd x); reflexivity. Qed.
Lemma add_real_log_up demangle d p s x : add_real_log demangle (moved d p) (n_up d s) (up d x) = lmap (n_up d) (add_real_log demangle p s x).
Proof.
  unfold add_real_log. cbn [moved pg_target pg_sizes pg_defines pg_declares n_up n_g n_indices n_aliases n_addr2name n_ambiguous n_indirects n_fmts n_info n_untyped up fst snd]. cbv zeta.
  rewrite lmap_lbind. apply lbind_ext. intros c _. rewrite lmap_lbind. apply lbind_ext. intros info _. rewrite lmap_lbind. apply lbind_ext. intros am _. rewrite bput_up.
  destruct (add_node (n_g s) _) as [g idx]. destruct (def_of (pg_defines p) (untagged (snd x))); [reflexivity|]. destruct (decl_of (pg_declares p) (untagged (snd x))); [reflexivity|].
  destruct (negb (is_outlined_function c)); reflexivity.
Qed.
Lemma real_nodes_log_up demangle d p : real_nodes_log demangle (moved d p) = lmap (n_up d) (real_nodes_log demangle p).
Proof.
  unfold real_nodes_log. cbn [moved pg_defined]. rewrite lfold_map.
  assert (H : forall l s, lfold (fun s x => add_real_log demangle (moved d p) s (up d x)) l (n_up d s) = lmap (n_up d) (lfold (add_real_log demangle p) l s)).
  { induction l as [|x l IH]; intros s; [reflexivity|]. cbn [lfold]. rewrite add_real_log_up, lbind_lmap, lmap_lbind. apply lbind_ext. intros a _. apply IH. }
  exact (H (pg_defined p) nodes0).
Qed.
Lemma exec_code_log_up demangle d p n e stext text x s : room d p -> real_nodes demangle p = Ret n -> pg_text p = Some (stext, text) -> In s (pg_defined p) ->
  exec_code_log (moved d p) (n_up d n) e (stext + d) text x (up d s) = exec_code_log p n e stext text x s.
Proof.
  intros [Rd Rt Rx] N0 T Hs. pose proof (real_nodes_low demangle d p n Rd N0) as Lo. specialize (Rx _ _ T). destruct s as [a sym]. specialize (Rd a sym Hs).
  unfold exec_code_log. cbn [moved pg_tags pg_target n_up n_aliases n_addr2name up fst snd]. cbv zeta. rewrite (N.mod_small (a + d)), (N.mod_small a) by lia.
  destruct (sy_names sym) as [|name names]; [reflexivity|]. destruct (sget (n_aliases n) name) as [c|]; [|reflexivity]. rewrite code_size_up by exact Rt.
  apply lbind_ext. intros size _. rewrite mod_up by lia.
  unfold slice. destruct (N.leb_spec ((a + 2 ^ 32 - stext) mod 2 ^ 32 + size) (N.of_nat (length text))) as [Ls|Ls]; [|reflexivity]. apply lbind_ext. intros code Ec. injection Ec as <-.
  assert (Fit : a + d + size < 2 ^ 32).
  { change (2 ^ 32) with 4294967296 in *. destruct (N.le_gt_cases stext a) as [La|La].
    - replace (a + 4294967296 - stext) with (a - stext + 1 * 4294967296) in Ls by lia. rewrite N.mod_add, N.mod_small in Ls by lia. lia.
    - rewrite N.mod_small in Ls by lia. lia. }
  rewrite analyze_up; [|exact Rt | rewrite firstn_length; lia].
  apply lbind_ext. intros an _.
  destruct (sget (e_indices e) c) as [caller|]; [|reflexivity]. destruct x as [g seen].
  apply lbind_ext. intros l _. apply lbind_ext. intros l' _. apply lbind_ext. intros g' _.
  match goal with |- lbind (quiet ?u) _ = lbind (quiet ?v) _ => assert (E : u = v) by (apply ofold_ext; intros; apply add_bl_up; exact Lo); rewrite E end.
  apply lbind_ext. intros y _. f_equal. apply ofold_ext. intros; apply add_b_up; [exact Lo | exact Fit].
Qed.
Lemma machine_edges_log_up demangle d p n e : (is_thumb (pg_target p) = true -> room d p) -> real_nodes demangle p = Ret n ->
  machine_edges_log (moved d p) (n_up d n) e = machine_edges_log p n e.
Proof.
  intros R N0. unfold machine_edges_log. cbn [moved pg_target pg_text pg_defined]. destruct (is_thumb (pg_target p)); [|reflexivity]. specialize (R eq_refl).
  destruct (pg_text p) as [[stext text]|] eqn:T; [|reflexivity]. cbn [option_map up fst snd]. rewrite lfold_map. pose proof (rm_text _ _ R _ _ T) as L. rewrite (N.mod_small (stext + d)), (N.mod_small stext) by lia.
  match goal with |- lbind ?u _ = lbind ?v _ => assert (E : u = v) by (apply lfold_ext; intros; eapply exec_code_log_up; eassumption); rewrite E; reflexivity end.
Qed.
Theorem build_log_up demangle o d p : (is_thumb (pg_target p) = true -> room d p) -> build_log demangle o (moved d p) = build_log demangle o p.
Proof.
  intros R. unfold build_log. cbn [moved pg_defines]. apply lbind_ext. intros _ _. rewrite real_nodes_log_up, lbind_lmap. apply lbind_ext. intros n N0. rewrite real_erase in N0.
  change (ir_edges_log (moved d p) (n_up d n)) with (ir_edges_log p n). apply lbind_ext. intros e _. rewrite (machine_edges_log_up demangle) by assumption. reflexivity.
Qed.
Lemma report_log_up demangle o start d p : (is_thumb (pg_target p) = true -> room d p) -> report_log demangle o start (moved d p) = report_log demangle o start p.
Proof. intros R. unfold report_log. rewrite build_log_up by exact R. reflexivity. Qed.
Lemma report_up demangle o start d p : (is_thumb (pg_target p) = true -> room d p) -> report demangle o start (moved d p) = report demangle o start p.
Proof. intros R. rewrite <- !report_erase, report_log_up by exact R. reflexivity. Qed.
Lemma early_log_up demangle d p : early_log demangle (moved d p) = early_log demangle p.
Proof. unfold early_log. cbn [moved pg_defines]. apply lbind_ext. intros _ _. rewrite real_nodes_log_up, lbind_lmap. reflexivity. Qed.

(** * The whole tool *)
Lemma ldiff_up a d : N.even d = true -> N.ldiff (a + d) 1 = N.ldiff a 1 + d.
Proof.
  intros E. apply N.even_spec in E. destruct E as [k ->]. change (N.ldiff (a + 2 * k) (N.ones 1) = N.ldiff a (N.ones 1) + 2 * k). rewrite !N.ldiff_ones_r. change (2 ^ 1) with 2. rewrite !N.shiftl_mul_pow2, !N.shiftr_div_pow2. change (2 ^ 1) with 2.
  replace (a + 2 * k) with (a + k * 2) by lia. rewrite N.div_add by lia. lia.
Qed.
Lemma clear_thumb_up d t m : N.even d = true -> clear_thumb t (map (up d) m) = map (up d) (clear_thumb t m).
Proof.
  intros E. unfold clear_thumb. destruct (is_thumb t); [|reflexivity].
  assert (H : forall l acc, fold_left (fun (m : list (N * symbol)) kv => bput m (N.ldiff (fst kv) 1) (snd kv)) (map (up d) l) (map (up d) acc)
                          = map (up d) (fold_left (fun m kv => bput m (N.ldiff (fst kv) 1) (snd kv)) l acc)).
  { induction l as [|x l IH]; intros acc; [reflexivity|]. cbn [map fold_left]. cbn [up fst snd]. rewrite ldiff_up by exact E. rewrite bput_up. apply IH. }
  exact (H m []).
Qed.
Lemma ldiff_le a : N.ldiff a 1 <= a.
Proof. apply N.ldiff_le. rewrite N.ldiff_ldiff_l, N.lor_comm. rewrite <- N.ldiff_ldiff_l, N.ldiff_diag. reflexivity. Qed.
Lemma clear_thumb_low t m a y : In (a, y) (clear_thumb t m) -> exists a' y', In (a', y') m /\ a <= a'.
Proof.
  unfold clear_thumb. destruct (is_thumb t); [|intros H; exists a, y; split; [exact H | lia]].
  assert (H : forall l acc, In (a, y) (fold_left (fun (m : list (N * symbol)) kv => bput m (N.ldiff (fst kv) 1) (snd kv)) l acc) ->
                            In (a, y) acc \/ exists a' y', In (a', y') l /\ a <= a').
  { induction l as [|[b z] l IH]; intros acc K; [left; exact K|]. cbn [fold_left] in K. apply IH in K. destruct K as [K|[a' [y' [K L]]]]; [|right; exists a', y'; split; [right; exact K | exact L]].
    apply bput_in in K. cbn [fst snd] in K. destruct K as [K|K]; [left; exact K|]. right. exists b, z. split; [left; reflexivity | rewrite K; apply ldiff_le]. }
  intros K. destruct (H m [] K) as [[]|K']. exact K'.
Qed.
Lemma insert_tag_up d t l : insert_tag (up d t) (map (up d) l) = map (up d) (insert_tag t l).
Proof.
  induction l as [|u l IH]; [reflexivity|]. cbn [map insert_tag]. cbn [up fst snd] in *. destruct (N.ltb_spec (fst t) (fst u)); destruct (N.ltb_spec (fst t + d) (fst u + d)); try lia; [reflexivity|].
  cbn [map]. f_equal. exact IH.
Qed.
Lemma collect_tags_up d l : (forall a n, In (a, n) l -> tag_of (a, n) <> None -> a + d < 2 ^ 32) -> collect_tags (map (up d) l) = map (up d) (collect_tags l).
Proof.
  intros R. unfold collect_tags.
  assert (E : somes (map tag_of (map (up d) l)) = map (up d) (somes (map tag_of l))).
  { induction l as [|[a n] l IH]; [reflexivity|]. cbn [map somes]. rewrite IH by (intros; eapply R; [right|]; eassumption). specialize (R a n (or_introl eq_refl)). unfold tag_of in *. cbn [up fst snd] in *.
    destruct (starts_with (lit "$d") n); [|destruct (starts_with (lit "$t") n); [|reflexivity]].
    all: specialize (R ltac:(discriminate)); rewrite (N.mod_small (a + d)), (N.mod_small a) by lia; reflexivity. }
  rewrite E.
  assert (H : forall l acc, fold_left (fun l t => insert_tag t l) (map (up d) l) (map (up d) acc) = map (up d) (fold_left (fun l (t : N * tag) => insert_tag t l) l acc)).
  { clear. induction l as [|x l IH]; intros acc; [reflexivity|]. cbn [map fold_left]. rewrite insert_tag_up. apply IH. }
  exact (H _ []).
Qed.
Lemma collect_tags_low l a t : In (a, t) (collect_tags l) -> exists a' n, In (a', n) l /\ tag_of (a', n) <> None /\ a <= a'.
Proof.
  unfold collect_tags.
  assert (I : forall x l u, In u (insert_tag x l) -> u = x \/ In u l).
  { intros x. induction l0 as [|y l0 IH]; intros u; cbn [insert_tag]; [intros [<-|[]]; left; reflexivity|]. destruct (fst x <? fst y); [intros [<-|H]; [left; reflexivity | right; exact H]|].
    intros [<-|H]; [right; left; reflexivity|]. destruct (IH _ H) as [K|K]; [left; exact K | right; right; exact K]. }
  assert (H : forall l acc, In (a, t) (fold_left (fun l t => insert_tag t l) l acc) -> In (a, t) l \/ In (a, t) acc).
  { induction l0 as [|x l0 IH]; intros acc K; [right; exact K|]. cbn [fold_left] in K. apply IH in K. destruct K as [K|K]; [left; right; exact K|]. apply I in K. destruct K as [<-|K]; [left; left; reflexivity | right; exact K]. }
  intros K. destruct (H _ [] K) as [K'|[]]. clear K H I.
  induction l as [|[b n] l IH]; [destruct K'|]. cbn [map somes] in K'. destruct (tag_of (b, n)) as [u|] eqn:E.
  - destruct K' as [->|K']; [|destruct (IH K') as [a' [n' [P Q]]]; exists a', n'; split; [right; exact P | exact Q]]. exists b, n. split; [left; reflexivity|]. split; [rewrite E; discriminate|].
    unfold tag_of in E. cbn [fst snd] in E. pose proof (N.mod_le b (2 ^ 32) ltac:(lia)). destruct (starts_with (lit "$d") n); [injection E as <- _; assumption|]. destruct (starts_with (lit "$t") n); [injection E as <- _; assumption | discriminate E].
  - destruct (IH K') as [a' [n' [P Q]]]. exists a', n'. split; [right; exact P | exact Q].
Qed.
Definition st_up (d : N) (x : prog * outcome (list (N * str))) : prog * outcome (list (N * str)) :=
  (moved d (fst x), match snd x with Ret s => Ret (map (up d) s) | Fail m => Fail m | Panic m => Panic m | Fuel => Fuel end).
Lemma archive_sizes_up d w ms : archive_sizes (relinked d w) ms = archive_sizes w ms.
Proof. induction ms as [|m ms IH]; [reflexivity|]. cbn [archive_sizes]. rewrite IH. reflexivity. Qed.
Lemma load_files_up d w target file rlib ll : N.even d = true -> load_files (relinked d w) target file rlib ll = omapo (st_up d) (load_files w target file rlib ll).
Proof.
  intros E. unfold load_files, omapo. cbv zeta. change (w_args (relinked d w)) with (w_args w). change (w_path (relinked d w)) with (w_path w). change (w_host (relinked d w)) with (w_host w).
  change (w_read (relinked d w)) with (w_read w). change (w_dir (relinked d w)) with (w_dir w). change (read_to_string (relinked d w)) with (read_to_string w).
  change (w_object (relinked d w)) with (w_object w). change (w_archive (relinked d w)) with (w_archive w). change (w_defines_order (relinked d w)) with (w_defines_order w).
  repeat (match goal with |- bind ?x _ = bind (bind ?x _) _ => destruct x end; try reflexivity; cbn [bind]).
  match goal with |- context [match ?b with Some _ => _ | None => _ end] => destruct b as [[ll_name tm]|] end; [|reflexivity].
  repeat (match goal with |- bind ?x _ = bind (bind ?x _) _ => destruct x end; try reflexivity; cbn [bind]).
  rewrite archive_sizes_up.
  repeat (match goal with |- bind ?x _ = bind (bind ?x _) _ => destruct x end; try reflexivity; cbn [bind]).
  unfold relinked. cbn [w_executable w_symtab w_text].
  match goal with |- context [w_executable w ?e] => destruct (w_executable w e) end; try reflexivity. cbn [bind el_defined el_undefined]. rewrite clear_thumb_up by exact E.
  unfold st_up, moved. cbn [fst snd pg_target pg_defines pg_declares pg_sizes pg_defined pg_undefined pg_tags pg_text map]. destruct (is_thumb (classify_target target)); reflexivity.
Qed.
Lemma load_files_room d w target file rlib ll p s : roomy d w -> load_files w target file rlib ll = Ret (p, Ret s) -> is_thumb (pg_target p) = true -> room d (with_tags p s).
Proof.
  intros [Rd Rt Rx] E T. unfold load_files in E. cbv zeta in E.
  repeat (match type of E with bind ?x _ = _ => destruct x eqn:? end; try discriminate E; cbn [bind] in E).
  match type of E with match ?b with _ => _ end = _ => destruct b as [[ll_name tm]|] end; [|discriminate E].
  repeat (match type of E with bind ?x _ = _ => destruct x eqn:? end; try discriminate E; cbn [bind] in E).
  injection E as <- Es. cbn [pg_target] in T. rewrite T in *.
  split; cbn [with_tags pg_defined pg_tags pg_text].
  - intros b y H. apply clear_thumb_low in H. destruct H as [b' [y' [H L]]]. eapply Rd in H; [|eassumption]. lia.
  - intros b t H. apply collect_tags_low in H. destruct H as [b' [n [H [K L]]]]. eapply Rt in H; [|eassumption | exact K]. lia.
  - intros b text H. eapply Rx. exact H.
Qed.
Definition imap {A B} (f : A -> B) (x : io A) : io B := (fst x, omapo f (snd x)).
Lemma ibind_ext {A B} (x : io A) (f g : A -> io B) : (forall a, snd x = Ret a -> f a = g a) -> ibind x f = ibind x g.
Proof. intros H. unfold ibind. destruct (snd x) as [a| | |]; try reflexivity. rewrite (H a eq_refl). reflexivity. Qed.
Lemma ibind_imap {A B C} (h : A -> B) (x : io A) (f : B -> io C) : ibind (imap h x) f = ibind x (fun a => f (h a)).
Proof. unfold ibind, imap, omapo. cbn [fst snd]. destruct (snd x); reflexivity. Qed.
Lemma with_tags_up d p s : (is_thumb (pg_target p) = true -> forall a n, In (a, n) s -> tag_of (a, n) <> None -> a + d < 2 ^ 32) -> (is_thumb (pg_target p) = false -> s = []) ->
  with_tags (moved d p) (map (up d) s) = moved d (with_tags p s).
Proof.
  intros R Z. unfold with_tags, moved. cbn [pg_target pg_defines pg_declares pg_sizes pg_defined pg_undefined pg_tags pg_text]. rewrite collect_tags_up; [reflexivity|].
  destruct (is_thumb (pg_target p)); [exact (R eq_refl) | rewrite (Z eq_refl); intros a n []].
Qed.
Lemma load_files_symtab w target file rlib ll p st : load_files w target file rlib ll = Ret (p, st) ->
  pg_target p = classify_target target /\ (is_thumb (pg_target p) = true -> exists elf, st = w_symtab w elf) /\ (is_thumb (pg_target p) = false -> st = Ret []).
Proof.
  intros E. unfold load_files in E. cbv zeta in E.
  repeat (match type of E with bind ?x _ = _ => destruct x eqn:? end; try discriminate E; cbn [bind] in E).
  match type of E with match ?b with _ => _ end = _ => destruct b as [[ll_name tm]|] end; [|discriminate E].
  repeat (match type of E with bind ?x _ = _ => destruct x eqn:? end; try discriminate E; cbn [bind] in E).
  injection E as <- <-. cbn [pg_target]. split; [reflexivity|]. destruct (is_thumb (classify_target target)); split; intros T; try discriminate T; [|reflexivity]. eexists. reflexivity.
Qed.
Lemma loading_up demangle d w target file rlib ll : N.even d = true -> (is_thumb (classify_target target) = true -> roomy d w) ->
  loading demangle (relinked d w) target file rlib ll = imap (moved d) (loading demangle w target file rlib ll).
Proof.
  intros E R. unfold loading. rewrite load_files_up by exact E. destruct (load_files w target file rlib ll) as [[p st]| | |] eqn:L; try reflexivity.
  destruct (load_files_symtab _ _ _ _ _ _ _ L) as [T [St Sn]]. rewrite <- T in R. unfold omapo, ibind, lift. cbn [bind fst snd st_up]. unfold imap, omapo. cbn [fst snd app].
  destruct st as [s|m|m|]; cbn [read_symtab].
  - unfold iret. cbn [fst snd bind]. rewrite with_tags_up; [reflexivity| |].
    + intros Th a n H. destruct (St Th) as [elf Es]. symmetry in Es. exact (ry_tags _ _ (R Th) elf s a n Es H).
    + intros Th. specialize (Sn Th). injection Sn as ->. reflexivity.
  - rewrite early_log_up. unfold ibind, logged, lift. cbn [fst snd bind]. destruct (snd (early_log demangle p)); reflexivity.
  - rewrite early_log_up. unfold ibind, logged, lift. cbn [fst snd bind]. destruct (snd (early_log demangle p)); reflexivity.
  - rewrite early_log_up. unfold ibind, logged, lift. cbn [fst snd bind]. destruct (snd (early_log demangle p)); reflexivity.
Qed.
Lemma loading_room demangle d w target file rlib ll q : roomy d w -> snd (loading demangle w target file rlib ll) = Ret q -> is_thumb (pg_target q) = true -> room d q.
Proof.
  intros R. unfold loading. destruct (load_files w target file rlib ll) as [[p st]| | |] eqn:L; try discriminate. unfold ibind at 1, lift at 1. cbn [fst snd].
  destruct st as [s|m|m|]; cbn [read_symtab].
  - unfold iret. cbn [snd]. intros E T. injection E as <-. exact (load_files_room _ _ _ _ _ _ _ _ R L T).
  - unfold ibind, logged, lift. cbn [fst snd bind]. destruct (snd (early_log demangle p)); discriminate.
  - unfold ibind, logged, lift. cbn [fst snd bind]. destruct (snd (early_log demangle p)); discriminate.
  - unfold ibind, logged, lift. cbn [fst snd bind]. destruct (snd (early_log demangle p)); discriminate.
Qed.
Lemma loading_target demangle w target file rlib ll q : snd (loading demangle w target file rlib ll) = Ret q -> pg_target q = classify_target target.
Proof.
  unfold loading. destruct (load_files w target file rlib ll) as [[p st]| | |] eqn:L; try discriminate. unfold ibind at 1, lift at 1. cbn [fst snd].
  destruct (load_files_symtab _ _ _ _ _ _ _ L) as [T _]. destruct st as [s|m|m|]; cbn [read_symtab].
  - unfold iret. cbn [snd]. intros E. injection E as <-. exact T.
  - unfold ibind, logged, lift. cbn [fst snd bind]. destruct (snd (early_log demangle p)); discriminate.
  - unfold ibind, logged, lift. cbn [fst snd bind]. destruct (snd (early_log demangle p)); discriminate.
  - unfold ibind, logged, lift. cbn [fst snd bind]. destruct (snd (early_log demangle p)); discriminate.
Qed.
Lemma analyse_up demangle d w target file paths : N.even d = true -> (is_thumb (classify_target target) = true -> roomy d w) ->
  analyse demangle (relinked d w) target file paths = analyse demangle w target file paths.
Proof.
  intros E R. unfold analyse. destruct paths as [[rlib|] [ll|]]; try reflexivity. rewrite loading_up by assumption. rewrite ibind_imap. apply ibind_ext. intros q Q.
  change (w_orders (relinked d w)) with (w_orders w). change (w_args (relinked d w)) with (w_args w). rewrite report_log_up; [reflexivity|].
  intros T. eapply loading_room; [|exact Q | exact T]. apply R. rewrite <- (loading_target _ _ _ _ _ _ _ Q). exact T.
Qed.
Lemma touch_up d w : touch (relinked d w) = touch w.
Proof.
  assert (H : forall l, touch_first (relinked d w) l = touch_first w l) by (induction l as [|x l IH]; [reflexivity|]; cbn [touch_first]; rewrite IH; reflexivity).
  unfold touch. rewrite H. reflexivity.
Qed.
Theorem main_up demangle d w : N.even d = true -> (forall config, w_project w = Ret config -> is_thumb (classify_target (target_of w config)) = true -> roomy d w) -> main demangle (relinked d w) = main demangle w.
Proof.
  intros E R. assert (H : run demangle (relinked d w) = run demangle w); [|unfold main; rewrite H; reflexivity].
  unfold run. change (w_wrapper (relinked d w)) with (w_wrapper w). destruct (w_wrapper w); [reflexivity|].
  change (w_meta (relinked d w)) with (w_meta w). apply ibind_ext. intros [] _. change (w_hash (relinked d w)) with (w_hash w). change (w_override (relinked d w)) with (w_override w).
  destruct (_ && _)%bool; [reflexivity|]. cbv zeta. change (w_args (relinked d w)) with (w_args w). apply ibind_ext. intros file _. change (w_project (relinked d w)) with (w_project w). apply ibind_ext. intros config C.
  change (w_host (relinked d w)) with (w_host w). apply ibind_ext. intros _ _. change (ask_cfg (relinked d w)) with (ask_cfg w). apply ibind_ext. intros cfg _. change (w_exe (relinked d w)) with (w_exe w).
  apply ibind_ext. intros exe _. rewrite touch_up. apply ibind_ext. intros _ _. apply ibind_ext. intros _ _.
  unfold build_and_analyse. apply ibind_ext. intros _ _. change (w_cargo (relinked d w)) with (w_cargo w). apply ibind_ext. intros child _. change (w_utf8 (relinked d w)) with (w_utf8 w). apply ibind_ext. intros paths _.
  destruct (snd child) as [[|c|c]|]; try reflexivity. apply analyse_up; [exact E|]. intros T. apply (R config C). unfold target_of. destruct config, (a_target (w_args w)); exact T.
Qed.
Theorem launch_up demangle d w : N.even d = true -> roomy d w -> launch demangle (relinked d w) = launch demangle w.
Proof.
  intros E R. unfold launch. change (ends_early (relinked d w)) with (ends_early w). rewrite main_up by (assumption || (intros; exact R)). destruct (ends_early w); [reflexivity|].
  change (w_utf8 (relinked d w)) with (w_utf8 w). change (w_argv (relinked d w)) with (w_argv w). destruct (cli (w_utf8 w) (w_argv w)) as [a| |]; [|reflexivity | reflexivity].
  change (with_args (relinked d w) a) with (relinked d (with_args w a)). apply main_up; [exact E|]. intros _ _ _. destruct R as [Rd Rt Rx]. split; [exact Rd | exact Rt | exact Rx].
Qed.
