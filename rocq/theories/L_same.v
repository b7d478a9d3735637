(** Reports of the same program that are made with different iteration orders. *)
From Coq Require Import Permutation Sorted.
From Verif Require Import M_base M_stack M_graph M_analysis M_filter M_names M_render M_thumb M_ty M_parse M_build M_run S_graph S_names S_filter L_base S_render L_render L_names L_trav L_maxprops L_mono L_filter L_filter2
  S_build S_run L_build1 L_build2 L_build3 L_build4 L_build5 L_build6 L_build7 L_build9 L_run L_u64 L_run2 S_calls S_same L_calls4 L_calls5 L_calls6 L_report L_debug6 L_total.

Section Same.
Variables (g1 g2 : graph node) (f f' : nat -> nat).
Hypothesis (Sn : same_nodes g1 g2 f f') (W1 : wf_graph g1) (W2 : wf_graph g2).
Lemma sn_calls u v : u < node_count g1 -> v < node_count g1 -> (S_graph.calls g1 u v <-> S_graph.calls g2 (f u) (f v)).
Proof. intros Hu Hv. unfold S_graph.calls. rewrite !times_pos, (sn_edges _ _ _ _ Sn u v Hu Hv). reflexivity. Qed.
Lemma sn_renumbering : renumbering g1 g2 f f'.
Proof.
  constructor; try (intros v Hv; first [apply (sn_there _ _ _ _ Sn v Hv) | apply (sn_back _ _ _ _ Sn v Hv)]).
  - intros v Hv. unfold local_of. rewrite (sn_nodes _ _ _ _ Sn v Hv). reflexivity.
  - exact sn_calls.
Qed.
Lemma reach_lt u v : reach g1 u v -> u < node_count g1 -> v < node_count g1.
Proof. intros H. induction H as [v|u v w E H IH]; [exact (fun x => x)|]. intros _. exact (IH (proj2 (W1 _ _ E))). Qed.
Lemma sn_reach_fwd u v : reach g1 u v -> u < node_count g1 -> reach g2 (f u) (f v).
Proof. intros H. induction H as [v|u v w E H IH]; intros Hu; [constructor|]. destruct (W1 _ _ E) as [_ Hv]. apply (star_step _ _ (f v)); [now apply sn_calls | exact (IH Hv)]. Qed.
End Same.
Lemma sn_sym g1 g2 f f' : same_nodes g1 g2 f f' -> same_nodes g2 g1 f' f.
Proof.
  intros Sn. constructor; [exact (sn_back _ _ _ _ Sn) | exact (sn_there _ _ _ _ Sn) | |].
  - intros v Hv. destruct (sn_back _ _ _ _ Sn v Hv) as [L E]. rewrite <- (sn_nodes _ _ _ _ Sn _ L), E. reflexivity.
  - intros u v Hu Hv. destruct (sn_back _ _ _ _ Sn u Hu) as [Lu Eu]. destruct (sn_back _ _ _ _ Sn v Hv) as [Lv Ev]. rewrite (sn_edges _ _ _ _ Sn _ _ Lu Lv), Eu, Ev. reflexivity.
Qed.
Lemma sn_reach g1 g2 f f' u v : same_nodes g1 g2 f f' -> wf_graph g1 -> wf_graph g2 -> u < node_count g1 -> v < node_count g1 -> (reach g1 u v <-> reach g2 (f u) (f v)).
Proof.
  intros Sn W1 W2 Hu Hv. split; [intros H; exact (sn_reach_fwd g1 g2 f f' Sn W1 u v H Hu)|]. intros H.
  apply (sn_reach_fwd g2 g1 f' f (sn_sym _ _ _ _ Sn) W2) in H; [|apply (sn_there _ _ _ _ Sn u Hu)]. rewrite (proj2 (sn_there _ _ _ _ Sn u Hu)), (proj2 (sn_there _ _ _ _ Sn v Hv)) in H. exact H.
Qed.

(** * From the construction *)
Lemma matched_same n g1 g2 f f' : wf_graph g1 -> matched n g1 g2 f f' -> same_nodes g1 g2 f f'.
Proof.
  intros W1 [_ [Nd [I1 [I2 P]]]].
  assert (T : forall v, v < node_count g1 -> f v < node_count g2) by (intros v Hv; unfold node_count in *; apply nth_error_Some; rewrite (proj1 (Nd v)); apply nth_error_Some; exact Hv).
  assert (B : forall v, v < node_count g2 -> f' v < node_count g1) by (intros v Hv; unfold node_count in *; apply nth_error_Some; rewrite (proj2 (Nd v)); apply nth_error_Some; exact Hv).
  constructor.
  - intros v Hv. exact (conj (T v Hv) (I1 v Hv)).
  - intros v Hv. exact (conj (B v Hv) (I2 v Hv)).
  - intros v _. exact (proj1 (Nd v)).
  - intros u v Hu Hv. rewrite <- (times_perm _ _ _ P). unfold times. assert (L : forall e, In e (gedges g1) -> fst e < node_count g1 /\ snd e < node_count g1) by (intros [x y] I; exact (W1 x y I)).
    clear P W1. induction (gedges g1) as [|[x y] l IH]; [reflexivity|]. cbn [map filter fst snd]. specialize (IH (fun e I => L e (or_intror I))). destruct (L (x, y) (or_introl eq_refl)) as [Lx Ly]. cbn [fst snd] in Lx, Ly.
    assert (Ex : (f x =? f u) = (x =? u)) by (destruct (Nat.eqb_spec x u) as [->|N]; [apply Nat.eqb_refl|]; apply Nat.eqb_neq; intros K; apply N; rewrite <- (I1 x Lx), K; exact (I1 u Hu)).
    assert (Ey : (f y =? f v) = (y =? v)) by (destruct (Nat.eqb_spec y v) as [->|N]; [apply Nat.eqb_refl|]; apply Nat.eqb_neq; intros K; apply N; rewrite <- (I1 y Ly), K; exact (I1 v Hv)).
    rewrite Ex, Ey. destruct ((x =? u) && (y =? v)); cbn [length]; [f_equal|]; exact IH.
Qed.

(** * The start point *)
Lemma same_restricted g1 g2 f f' i r1 r2 ids1 ids2 : same_nodes g1 g2 f f' -> wf_graph g1 -> wf_graph g2 -> i < node_count g1 -> restricted g1 i r1 ids1 -> restricted g2 (f i) r2 ids2 ->
  exists h h', same_nodes r1 r2 h h'.
Proof.
  intros Sn W1 W2 Hi R1 R2.
  assert (One : forall ga gb fa fb ra rb ia ib j, same_nodes ga gb fa fb -> wf_graph ga -> wf_graph gb -> j < node_count ga -> restricted ga j ra ia -> restricted gb (fa j) rb ib ->
    forall k, k < node_count ra -> exists v, nth_error ia k = Some v /\ v < node_count ga /\ nth_error ib (pos ib (fa v)) = Some (fa v)).
  { clear. intros ga gb fa fb ra rb ia ib j S Wa Wb Hj Ra Rb k Hk. rewrite <- (rs_count _ _ _ _ Ra) in Hk. destruct (nth_error ia k) as [v|] eqn:Ev; [|apply nth_error_None in Ev; lia]. exists v. split; [reflexivity|].
    pose proof (proj1 (rs_reach _ _ _ _ Ra v) (nth_error_In _ _ Ev)) as Rv. pose proof (reach_lt ga Wa _ _ Rv Hj) as Lv. split; [exact Lv|]. apply pos_nth. apply (rs_reach _ _ _ _ Rb). exact (sn_reach_fwd ga gb fa fb S Wa _ _ Rv Hj). }
  pose proof (One g1 g2 f f' r1 r2 ids1 ids2 i Sn W1 W2 Hi R1 R2) as O1.
  assert (R1' : restricted g1 (f' (f i)) r1 ids1) by (rewrite (proj2 (sn_there _ _ _ _ Sn i Hi)); exact R1).
  pose proof (One g2 g1 f' f r2 r1 ids2 ids1 (f i) (sn_sym _ _ _ _ Sn) W2 W1 (proj1 (sn_there _ _ _ _ Sn i Hi)) R2 R1') as O2. clear One R1'.
  set (h := fun k => pos ids2 (f (nth k ids1 0))). set (h' := fun k => pos ids1 (f' (nth k ids2 0))).
  assert (H1 : forall k v, nth_error ids1 k = Some v -> h k = pos ids2 (f v)) by (intros k v E; unfold h; rewrite (nth_error_nth _ _ 0 E); reflexivity).
  assert (H2 : forall k v, nth_error ids2 k = Some v -> h' k = pos ids1 (f' v)) by (intros k v E; unfold h'; rewrite (nth_error_nth _ _ 0 E); reflexivity).
  assert (L1 : forall k v, nth_error ids1 k = Some v -> k < node_count r1) by (intros k v E; rewrite <- (rs_count _ _ _ _ R1); apply nth_error_Some; rewrite E; discriminate).
  assert (L2 : forall k v, nth_error ids2 k = Some v -> k < node_count r2) by (intros k v E; rewrite <- (rs_count _ _ _ _ R2); apply nth_error_Some; rewrite E; discriminate).
  exists h, h'. constructor.
  - intros k Hk. destruct (O1 k Hk) as [v [E [Lv P]]]. rewrite (H1 _ _ E). split; [exact (L2 _ _ P)|]. rewrite (H2 _ _ P), (proj2 (sn_there _ _ _ _ Sn v Lv)). exact (pos_unique _ _ _ (rs_nodup _ _ _ _ R1) E).
  - intros k Hk. destruct (O2 k Hk) as [v [E [Lv P]]]. rewrite (H2 _ _ E). split; [exact (L1 _ _ P)|]. rewrite (H1 _ _ P), (proj2 (sn_back _ _ _ _ Sn v Lv)). exact (pos_unique _ _ _ (rs_nodup _ _ _ _ R2) E).
  - intros k Hk. destruct (O1 k Hk) as [v [E [Lv P]]]. rewrite (H1 _ _ E), (rs_nodes _ _ _ _ R2 _ _ P), (rs_nodes _ _ _ _ R1 _ _ E). exact (sn_nodes _ _ _ _ Sn v Lv).
  - intros k l Hk Hl. destruct (O1 k Hk) as [v [E [Lv P]]]. destruct (O1 l Hl) as [w [E' [Lw P']]]. rewrite (H1 _ _ E), (H1 _ _ E').
    rewrite <- !count_times, (rs_edges _ _ _ _ R1 _ _ _ _ E E'), (rs_edges _ _ _ _ R2 _ _ _ _ P P'), !count_times. exact (sn_edges _ _ _ _ Sn v w Lv Lw).
Qed.
Definition found_alike (x1 x2 : list (str * nat)) (f : nat -> nat) : Prop := forall n u, sget x1 n = Some u <-> sget x2 n = Some (f u).
Lemma sget_keys (m : list (str * nat)) k : sget m k = None <-> ~ In k (map fst m).
Proof. rewrite sget_None, in_map_iff. split; intros H; [intros [[a b] [<- I]]; apply H; now exists b | intros [v I]; apply H; now exists (k, v)]. Qed.
Lemma same_resolve demangle x1 x2 f m s : NoDup (map fst x1) -> NoDup (map fst x2) -> found_alike x1 x2 f -> (forall n w, sget x2 n = Some w -> exists u, u < m /\ f u = w) ->
  forall i, resolve_start demangle x1 s = Some i -> resolve_start demangle x2 s = Some (f i).
Proof.
  intros N1 N2 A B i H. destruct (sget x1 s) as [u|] eqn:Eu.
  - unfold resolve_start in *. rewrite Eu in H. injection H as <-. rewrite (proj1 (A s u) Eu). reflexivity.
  - assert (K1 : ~ In s (map fst x1)) by (apply sget_keys; exact Eu).
    assert (K2 : ~ In s (map fst x2)). { apply sget_keys. destruct (sget x2 s) as [w|] eqn:Ew; [|reflexivity]. destruct (B _ _ Ew) as [u [_ <-]]. apply A in Ew. rewrite Eu in Ew. discriminate Ew. }
    apply (resolve_other demangle x1 s i N1 K1) in H. apply (resolve_other demangle x2 s (f i) N2 K2). destruct H as [key [I [Hr U]]]. exists key.
    split; [apply (L_build1.sget_In _ _ _ N2); apply A; apply (L_build1.sget_In _ _ _ N1); assumption|]. split; [exact Hr|]. intros key' j I' Hr'. apply (L_build1.sget_In _ _ _ N2) in I'.
    destruct (B _ _ I') as [u [_ <-]]. apply A in I'. apply (L_build1.sget_In _ _ _ N1) in I'. exact (U key' u I' Hr').
Qed.
Lemma same_resolve_none demangle x1 x2 f m s : NoDup (map fst x1) -> NoDup (map fst x2) -> found_alike x1 x2 f -> (forall n w, sget x2 n = Some w -> exists u, u < m /\ f u = w) ->
  (forall u v, u < m -> v < m -> f u = f v -> u = v) -> (forall n u, sget x1 n = Some u -> u < m) ->
  resolve_start demangle x1 s = None -> resolve_start demangle x2 s = None.
Proof.
  intros N1 N2 A B J L H. destruct (resolve_start demangle x2 s) as [w|] eqn:Ew; [|reflexivity]. exfalso.
  destruct (sget x2 s) as [v|] eqn:Ev.
  - destruct (B _ _ Ev) as [u [_ <-]]. apply A in Ev. unfold resolve_start in H. rewrite Ev in H. discriminate H.
  - assert (K2 : ~ In s (map fst x2)) by (apply sget_keys; exact Ev).
    assert (K1 : ~ In s (map fst x1)) by (apply sget_keys; destruct (sget x1 s) as [u|] eqn:Eu; [apply A in Eu; rewrite Ev in Eu; discriminate Eu | reflexivity]).
    apply (resolve_other demangle x2 s w N2 K2) in Ew. destruct Ew as [key [I [Hr U]]]. apply (L_build1.sget_In _ _ _ N2) in I. destruct (B _ _ I) as [u [_ <-]]. apply A in I.
    assert (X : resolve_start demangle x1 s = Some u); [|rewrite X in H; discriminate H].
    apply (resolve_other demangle x1 s u N1 K1). exists key. split; [apply (L_build1.sget_In _ _ _ N1); exact I|]. split; [exact Hr|]. intros key' j I' Hr'. apply (L_build1.sget_In _ _ _ N1) in I'. apply A in I'. apply (L_build1.sget_In _ _ _ N2) in I'. exact (U key' _ I' Hr').
Qed.

(** * The maxima *)
Lemma sn_mutual g1 g2 f f' u v : same_nodes g1 g2 f f' -> wf_graph g1 -> wf_graph g2 -> u < node_count g1 -> v < node_count g1 -> (mutual g1 u v <-> mutual g2 (f u) (f v)).
Proof. intros Sn W1 W2 Hu Hv. unfold mutual. rewrite (sn_reach _ _ _ _ u v Sn W1 W2 Hu Hv), (sn_reach _ _ _ _ v u Sn W1 W2 Hv Hu). reflexivity. Qed.
Lemma sn_recursive_fwd (g1 g2 : graph node) f f' v : same_nodes g1 g2 f f' -> wf_graph g1 -> v < node_count g1 -> recursive g1 v -> recursive g2 (f v).
Proof.
  intros Sn W1 Hv [u [C R]]. destruct (W1 _ _ C) as [_ Hu]. exists (f u). split; [apply (sn_calls _ _ _ _ Sn v u Hv Hu); exact C | exact (sn_reach_fwd _ _ _ _ Sn W1 _ _ R Hu)].
Qed.
Definition groups_of (g : graph node) (cs : list (list nat)) : Prop :=
  NoDup (concat cs) /\ (forall c, In c cs -> c <> []) /\ (forall v, recursive g v <-> In v (concat cs)) /\ (forall c x y, In c cs -> In x c -> (In y c <-> mutual g x y)).
Lemma concat_In {A} (x : A) c cs : In c cs -> In x c -> In x (concat cs).
Proof. intros H1 H2. apply in_concat. now exists c. Qed.
Lemma recursive_lt (g : graph node) v : wf_graph g -> recursive g v -> v < node_count g.
Proof. intros W [u [C _]]. exact (proj1 (W _ _ C)). Qed.
Lemma nodup_r {A} (l r : list A) : NoDup (l ++ r) -> NoDup r.
Proof. induction l as [|a l IH]; [exact (fun x => x)|]. intros H. apply IH. now inversion H. Qed.
Lemma perm_groups (f : nat -> nat) : forall cs1 cs2, NoDup (concat cs1) -> NoDup (concat cs2) -> (forall c, In c cs1 -> c <> []) -> (forall c, In c cs2 -> c <> []) ->
  (forall x y, In x (concat cs1) -> In y (concat cs1) -> f x = f y -> x = y) ->
  (forall c, In c cs1 -> exists c', In c' cs2 /\ Permutation (map f c) c') -> (forall c', In c' cs2 -> exists c, In c cs1 /\ Permutation (map f c) c') -> same_groups cs1 cs2 f.
Proof.
  induction cs1 as [|c cs1 IH]; intros cs2 N1 N2 E1 E2 J A B.
  - exists []. split; [|constructor]. destruct cs2 as [|c' cs2]; [constructor|]. destruct (B c' (or_introl eq_refl)) as [c [[] _]].
  - destruct (A c (or_introl eq_refl)) as [c' [I P]]. apply in_split in I. destruct I as [l [r ->]]. cbn [concat] in N1. rewrite concat_app in N2. cbn [concat] in N2.
    assert (D1 : forall x d, In x c -> In d cs1 -> ~ In x d).
    { intros x d Hx Hd K. apply in_split in Hx. destruct Hx as [a [b ->]]. rewrite <- app_assoc in N1. cbn [app] in N1. apply NoDup_remove_2 in N1. apply N1. apply in_or_app. right. apply in_or_app. right. exact (concat_In _ _ _ Hd K). }
    assert (X : NoDup (c' ++ concat (l ++ r))) by (rewrite concat_app; apply (Permutation_NoDup (l := concat l ++ c' ++ concat r)); [apply Permutation_app_swap_app | exact N2]).
    assert (N2' : NoDup (concat (l ++ r))) by exact (nodup_r _ _ X).
    assert (D2 : forall x d, In x c' -> In d (l ++ r) -> ~ In x d).
    { intros x d Hx Hd K. apply in_split in Hx. destruct Hx as [a [b ->]]. rewrite <- app_assoc in X. cbn [app] in X. apply NoDup_remove_2 in X. apply X. apply in_or_app. right. apply in_or_app. right. exact (concat_In _ _ _ Hd K). }
    destruct (IH (l ++ r)) as [cs [Q F]].
    + exact (nodup_r _ _ N1).
    + exact N2'.
    + intros d Hd. apply E1. right. exact Hd.
    + intros d Hd. apply E2. apply in_app_iff in Hd. apply in_app_iff. cbn [In]. tauto.
    + intros x y Hx Hy. apply J; cbn [concat]; apply in_or_app; right; assumption.
    + intros d Hd. destruct (A d (or_intror Hd)) as [d' [I' P']]. exists d'. split; [|exact P']. apply in_app_iff in I'. apply in_app_iff. destruct I' as [I'|[<-|I']]; [left; exact I' | exfalso | right; exact I'].
      destruct d as [|x d]; [now destruct (E1 [] (or_intror Hd))|]. assert (Y : In (f x) (map f c)) by (apply (Permutation_in _ (Permutation_trans P' (Permutation_sym P))); left; reflexivity).
      apply in_map_iff in Y. destruct Y as [y [Y1 Y2]]. assert (y = x) by (apply J; [cbn [concat]; apply in_or_app; left; exact Y2 | cbn [concat]; apply in_or_app; right; exact (concat_In x (x :: d) cs1 Hd (or_introl eq_refl)) | exact Y1]). subst y.
      exact (D1 x (x :: d) Y2 Hd (or_introl eq_refl)).
    + intros d' Hd. destruct (B d') as [d [[<-|I'] P']]; [apply in_app_iff in Hd; apply in_app_iff; cbn [In]; tauto | exfalso | exists d; split; assumption].
      destruct d' as [|x d']; [apply (E2 []); [apply in_app_iff in Hd; apply in_app_iff; cbn [In]; tauto | reflexivity]|].
      apply (D2 x (x :: d')); [|exact Hd|left; reflexivity]. apply (Permutation_in _ P), (Permutation_in _ (Permutation_sym P')). left. reflexivity.
    + exists (c' :: cs). split; [|constructor; [exact P | exact F]]. apply Permutation_cons_app. exact Q.
Qed.
Lemma same_groups_of g1 g2 f f' cs1 cs2 : same_nodes g1 g2 f f' -> wf_graph g1 -> wf_graph g2 -> groups_of g1 cs1 -> groups_of g2 cs2 -> same_groups cs1 cs2 f.
Proof.
  intros Sn W1 W2 [A1 [A2 [A3 A4]]] [B1 [B2 [B3 B4]]].
  assert (Nd : forall (cs : list (list nat)) c, NoDup (concat cs) -> In c cs -> NoDup c).
  { intros cs c N I. apply in_split in I. destruct I as [l [r ->]]. rewrite concat_app in N. cbn [concat] in N. apply nodup_r in N. apply (nodup_r (concat r)). apply (Permutation_NoDup (Permutation_app_comm _ _)). exact N. }
  assert (Lt : forall v, In v (concat cs1) -> v < node_count g1) by (intros v I; apply A3 in I; exact (recursive_lt g1 v W1 I)).
  assert (J : forall x y, In x (concat cs1) -> In y (concat cs1) -> f x = f y -> x = y).
  { intros x y Hx Hy K. rewrite <- (proj2 (sn_there _ _ _ _ Sn x (Lt x Hx))), K. exact (proj2 (sn_there _ _ _ _ Sn y (Lt y Hy))). }
  assert (One : forall c c' x, In c cs1 -> In c' cs2 -> In x c -> In (f x) c' -> Permutation (map f c) c').
  { intros c c' x Ic Ic' Hx Hx'. pose proof (Lt x (concat_In _ _ _ Ic Hx)) as Lx. apply NoDup_Permutation; [|exact (Nd cs2 c' B1 Ic')|].
    - assert (Jc : forall a b, In a c -> In b c -> f a = f b -> a = b) by (intros a b Ha Hb; exact (J a b (concat_In _ _ _ Ic Ha) (concat_In _ _ _ Ic Hb))).
      pose proof (Nd cs1 c A1 Ic) as Nc. clear - Nc Jc. induction Nc as [|a c N Nc IH]; [constructor|]. cbn [map]. constructor; [|apply IH; intros u v Hu Hv; apply Jc; right; assumption].
      intros K. apply in_map_iff in K. destruct K as [y [K1 K2]]. apply N. rewrite <- (Jc y a (or_intror K2) (or_introl eq_refl) K1). exact K2.
    - intros y. rewrite (B4 c' (f x) y Ic' Hx'). split.
      + intros K. apply in_map_iff in K. destruct K as [u [<- Hu]]. apply (sn_mutual _ _ _ _ x u Sn W1 W2 Lx (Lt u (concat_In _ _ _ Ic Hu))). apply (A4 c x u Ic Hx). exact Hu.
      + intros M. assert (Ly : y < node_count g2) by (exact (reach_lt g2 W2 _ _ (proj1 M) (proj1 (sn_there _ _ _ _ Sn x Lx)))). destruct (sn_back _ _ _ _ Sn y Ly) as [Lu Eu].
        apply in_map_iff. exists (f' y). split; [exact Eu|]. apply (A4 c x (f' y) Ic Hx). apply (sn_mutual _ _ _ _ x (f' y) Sn W1 W2 Lx Lu). rewrite Eu. exact M. }
  apply perm_groups; try assumption.
  - intros c Ic. destruct c as [|x c0] eqn:Ec; [now destruct (A2 [] Ic)|]. rewrite <- Ec in *. assert (Hx : In x c) by (rewrite Ec; left; reflexivity). pose proof (concat_In _ _ _ Ic Hx) as Ix.
    assert (X : In (f x) (concat cs2)) by (apply B3; apply (sn_recursive_fwd g1 g2 f f' x Sn W1 (Lt x Ix)); apply A3; exact Ix). apply in_concat in X. destruct X as [c' [Ic' Hx']]. exists c'. split; [exact Ic' | exact (One c c' x Ic Ic' Hx Hx')].
  - intros c' Ic'. destruct c' as [|y c0] eqn:Ec; [now destruct (B2 [] Ic')|]. rewrite <- Ec in *. assert (Hy : In y c') by (rewrite Ec; left; reflexivity). pose proof (concat_In _ _ _ Ic' Hy) as Iy. apply B3 in Iy. pose proof (recursive_lt g2 y W2 Iy) as Ly.
    destruct (sn_back _ _ _ _ Sn y Ly) as [Lu Eu]. assert (X : In (f' y) (concat cs1)) by (apply A3; exact (sn_recursive_fwd g2 g1 f' f y (sn_sym _ _ _ _ Sn) W2 Ly Iy)). apply in_concat in X. destruct X as [c [Ic Hx]]. exists c. split; [exact Ic|].
    apply (One c c' (f' y) Ic Ic' Hx). rewrite Eu. exact Hy.
Qed.
Lemma same_max info g1 g2 f f' h1 c1 : same_nodes g1 g2 f f' -> wf_graph g1 -> wf_graph g2 -> usages_u64 g1 -> max_stack info g1 = Ret (h1, c1) ->
  exists h2 c2, max_stack info g2 = Ret (h2, c2) /\ same_nodes h1 h2 f f' /\ same_groups c1 c2 f.
Proof.
  intros Sn W1 W2 U M1. destruct info; [|cbn in M1; injection M1 as <- <-; exists g2, []; split; [reflexivity|]; split; [exact Sn|]; exists []; split; constructor].
  destruct (all_reported g1 W1) as [x [y [M [Ed1 [Fa1 Rp1]]]]]. rewrite M1 in M. injection M as <- <-. destruct (all_reported g2 W2) as [h2 [c2 [M2 [Ed2 [Fa2 Rp2]]]]]. exists h2, c2. split; [exact M2|].
  assert (L1 : node_count h1 = node_count g1) by (unfold node_count; apply (f_equal (@length _)) in Fa1; rewrite !map_length in Fa1; exact Fa1).
  assert (L2 : node_count h2 = node_count g2) by (unfold node_count; apply (f_equal (@length _)) in Fa2; rewrite !map_length in Fa2; exact Fa2).
  split; [|exact (same_groups_of g1 g2 f f' c1 c2 Sn W1 W2 (clusters_exact _ _ _ W1 M1) (clusters_exact _ _ _ W2 M2))].
  constructor; rewrite ?L1, ?L2, ?Ed1, ?Ed2; [exact (sn_there _ _ _ _ Sn) | exact (sn_back _ _ _ _ Sn) | | exact (sn_edges _ _ _ _ Sn)].
  intros v Hv. destruct (Rp1 v Hv) as [m1 R1]. destruct (Rp2 (f v) (proj1 (sn_there _ _ _ _ Sn v Hv))) as [m2 R2].
  pose proof (renumbering_invariant g1 g2 f f' h1 h2 c1 c2 v m1 m2 W1 W2 U (sn_renumbering _ _ _ _ Sn) M1 M2 R1 R2) as <-.
  destruct R1 as [n1 [N1 X1]]. destruct R2 as [n2 [N2 X2]]. rewrite N1, N2. f_equal.
  apply (f_equal (fun l => nth_error l v)) in Fa1. apply (f_equal (fun l => nth_error l (f v))) in Fa2. rewrite !nth_error_map in Fa1, Fa2. rewrite N1 in Fa1. rewrite N2, (sn_nodes _ _ _ _ Sn v Hv) in Fa2. rewrite <- Fa2 in Fa1.
  destruct n1 as [a b c d], n2 as [a' b' c' d']. cbn in *. injection Fa1 as -> -> ->. congruence.
Qed.

(** * The names *)
Lemma shorten_nodes_iff demangle m l : forall l', shorten_nodes demangle m l = Ret l' <-> Forall2 (fun a b => shorten_node demangle m a = Ret b) l l'.
Proof.
  induction l as [|nd l IH]; intros l'; cbn [shorten_nodes].
  - split; [intros E; injection E as <-; constructor | intros E; inversion E; reflexivity].
  - split.
    + intros E. apply bind_Ret in E. destruct E as [a [E1 E]]. apply bind_Ret in E. destruct E as [r [E2 E]]. injection E as <-. constructor; [exact E1 | apply IH; exact E2].
    + intros E. inversion E as [|? a ? r E1 E2]; subst. rewrite E1. cbn [bind]. apply IH in E2. rewrite E2. reflexivity.
Qed.
Lemma Forall2_ex {A B} (R : A -> B -> Prop) l : (forall a, In a l -> exists b, R a b) -> exists l', Forall2 R l l'.
Proof.
  induction l as [|a l IH]; intros H; [exists []; constructor|]. destruct (H a (or_introl eq_refl)) as [b Hb]. destruct (IH (fun x I => H x (or_intror I))) as [l' F]. exists (b :: l'). constructor; assumption.
Qed.
Lemma same_shorten demangle m g1 g2 f f' h1 : same_nodes g1 g2 f f' -> shorten demangle m g1 = Ret h1 -> exists h2, shorten demangle m g2 = Ret h2 /\ same_nodes h1 h2 f f'.
Proof.
  intros Sn E. unfold shorten in *. apply bind_Ret in E. destruct E as [l1 [E1 E]]. injection E as <-. apply shorten_nodes_iff in E1.
  destruct (Forall2_ex (fun a b => shorten_node demangle m a = Ret b) (gnodes g2)) as [l2 E2].
  { intros a I. apply In_nth_error in I. destruct I as [w Hw]. assert (Lw : w < node_count g2) by (unfold node_count; apply nth_error_Some; rewrite Hw; discriminate). destruct (sn_back _ _ _ _ Sn w Lw) as [Lu Eu].
    pose proof (sn_nodes _ _ _ _ Sn _ Lu) as Q. rewrite Eu, Hw in Q. symmetry in Q. destruct (nth_error l1 (f' w)) as [b|] eqn:Eb; [|apply nth_error_None in Eb; rewrite <- (Forall2_len _ _ _ E1) in Eb; unfold node_count in Lu; lia].
    exists b. exact (Forall2_nth _ _ _ _ _ _ E1 Q Eb). }
  rewrite (proj2 (shorten_nodes_iff demangle m (gnodes g2) l2) E2). cbn [bind]. eexists. split; [reflexivity|].
  pose proof (Forall2_len _ _ _ E1) as L1. pose proof (Forall2_len _ _ _ E2) as L2.
  assert (C1 : node_count (mkG l1 (gedges g1)) = node_count g1) by (unfold node_count; cbn [gnodes]; congruence). assert (C2 : node_count (mkG l2 (gedges g2)) = node_count g2) by (unfold node_count; cbn [gnodes]; congruence).
  constructor; rewrite ?C1, ?C2; cbn [gnodes gedges]; [exact (sn_there _ _ _ _ Sn) | exact (sn_back _ _ _ _ Sn) | | exact (sn_edges _ _ _ _ Sn)].
  intros v Hv. pose proof (proj1 (sn_there _ _ _ _ Sn v Hv)) as Hw. pose proof (sn_nodes _ _ _ _ Sn v Hv) as Q. unfold node_count in Hv, Hw.
  destruct (nth_error (gnodes g1) v) as [a|] eqn:Ea; [|apply nth_error_None in Ea; lia].
  destruct (nth_error l1 v) as [b1|] eqn:Eb1; [|apply nth_error_None in Eb1; lia]. destruct (nth_error l2 (f v)) as [b2|] eqn:Eb2; [|apply nth_error_None in Eb2; lia].
  pose proof (Forall2_nth _ _ _ _ _ _ E1 Ea Eb1) as K1. pose proof (Forall2_nth _ _ _ _ _ _ E2 Q Eb2) as K2. cbn beta in K1, K2. congruence.
Qed.

(** * The report *)
Lemma stable_memcmp demangle o p b : wf_prog p -> fair o -> stable p -> build demangle o p = Ret b -> forall i, body p i (BitcastCall (Some memcmp)) -> exists j, live p memcmp j.
Proof.
  intros W Fo St E i B. destruct (build_spec _ _ _ _ W Fo E) as [ks [void [G [_ [Hc [Hi _]]]]]]. destruct (sget (b_indices b) memcmp) as [u|] eqn:Eu.
  - apply Hi in Eu. destruct Eu as [[j [C _]]|K]; [exists j; exact (chosen_live p _ _ C)|]. exfalso. apply nth_error_In, (go_nodes _ _ _ _ G) in K. inversion K as [|n Cr| | |]; subst. destruct (St _ Cr) as [X _]. now apply X.
  - exfalso. assert (Cr : created p memcmp) by (right; exists i; split; [exact B|]; intros j C; rewrite (Hc _ _ C) in Eu; discriminate Eu). destruct (St _ Cr) as [X _]. now apply X.
Qed.
Lemma same_built d o1 o2 p q b1 : wf_prog p -> same_prog p q -> fair o1 -> stable p -> build d o1 p = Ret b1 -> exists b2, build d o2 q = Ret b2.
Proof.
  intros W S Fo St E. apply (build_iff d o2 q (wf_same _ _ W S)). apply (understood_same p q W S); [|apply (build_iff d o1 p W); exists b1; exact E].
  intros i k B _. left. exact (stable_memcmp d o1 p b1 W Fo St E i B).
Qed.
Lemma same_ambiguous d o1 o2 p q b1 b2 : wf_prog p -> same_prog p q -> build d o1 p = Ret b1 -> build d o2 q = Ret b2 -> b_ambiguous b1 = b_ambiguous b2.
Proof.
  intros W S E1 E2. destruct (build_ambiguous _ _ _ _ W E1) as [n1 [F1 N1]]. destruct (build_ambiguous _ _ _ _ (wf_same _ _ W S) E2) as [n2 [F2 N2]]. rewrite (sp_defined _ _ S) in F2.
  assert (n1 = n2); [|congruence]. clear - F1 F2 S. revert n2 F2. induction F1 as [|i c l n C F1 IH]; intros n2 F2; inversion F2 as [|? c' ? n' C' F2']; subst; [reflexivity|].
  f_equal; [|apply IH; exact F2']. apply (s_chosen p q S) in C'. exact (chosen_fun p _ _ _ C C').
Qed.
Lemma same_info d o1 o2 p q b1 b2 : wf_prog p -> same_prog p q -> fair o1 -> fair o2 -> build d o1 p = Ret b1 -> build d o2 q = Ret b2 -> b_info b1 = b_info b2.
Proof.
  intros W S F1 F2 E1 E2. destruct (build_spec _ _ _ _ W F1 E1) as [? [? [_ [_ [_ [_ I1]]]]]]. destruct (build_spec _ _ _ _ (wf_same _ _ W S) F2 E2) as [? [? [_ [_ [_ [_ I2]]]]]].
  assert (X : b_info b1 = true <-> b_info b2 = true).
  { rewrite I1, I2. split; intros [i [c [C Z]]]; exists i, c; (split; [now apply (s_chosen p q S) | now apply (s_sized p q S)]). }
  destruct (b_info b1), (b_info b2); try reflexivity; [symmetry; now apply X | now apply X].
Qed.
Theorem same_report d o1 o2 start p q g1 c1 : wf_prog p -> same_prog p q -> fair o1 -> fair o2 -> stable p -> one_void p -> sizes_u64 p -> report d o1 start p = Ret (g1, c1) ->
  exists g2 c2 f f', report d o2 start q = Ret (g2, c2) /\ same_nodes g1 g2 f f' /\ same_groups c1 c2 f.
Proof.
  intros W S F1 F2 St Ov Sz R. unfold report in R. apply bind_Ret in R. destruct R as [b1 [E1 R]]. destruct (same_built d o1 o2 p q b1 W S F1 St E1) as [b2 E2]. unfold report. rewrite E2. cbn [bind].
  pose proof (wf_same _ _ W S) as Wq. destruct (stable_matched d d o1 o2 p q b1 b2 W S F1 F2 St Ov E1 E2) as [f [f' [Mt Ix]]].
  destruct (build_spec _ _ _ _ W F1 E1) as [k1 [v1 [G1 [_ [_ [Hi1 _]]]]]]. destruct (build_spec _ _ _ _ Wq F2 E2) as [k2 [v2 [G2 [_ [_ [Hi2 _]]]]]].
  pose proof (graph_wf p k1 v1 _ G1) as W1. pose proof (graph_wf q k2 v2 _ G2) as W2. pose proof (matched_same _ _ _ _ _ W1 Mt) as Sn.
  pose proof (build_ikeys _ _ _ _ W E1) as N1. pose proof (build_ikeys _ _ _ _ Wq E2) as N2.
  assert (Lx : forall n u, sget (b_indices b1) n = Some u -> u < node_count (b_g b1)) by (intros n u H; apply Hi1 in H; destruct H as [[j [_ H]]|H]; exact (key_idx p k1 v1 _ G1 _ _ H)).
  assert (Ly : forall n u, sget (b_indices b2) n = Some u -> u < node_count (b_g b2)) by (intros n u H; apply Hi2 in H; destruct H as [[j [_ H]]|H]; exact (key_idx q k2 v2 _ G2 _ _ H)).
  assert (Bk : forall n w, sget (b_indices b2) n = Some w -> exists u, u < node_count (b_g b1) /\ f u = w) by (intros n w H; exists (f' w); exact (sn_back _ _ _ _ Sn w (Ly _ _ H))).
  unfold finish in R. apply bind_Ret in R. destruct R as [r1 [R1 R]]. apply bind_Ret in R. destruct R as [[h1 cs] [M1 R]]. apply bind_Ret in R. destruct R as [x [S1 R]]. injection R as <- <-.
  assert (Fl : exists r2 h h', filter_start d (b_indices b2) start (b_g b2) = Ret r2 /\ same_nodes r1 r2 h h' /\ wf_graph r1 /\ wf_graph r2).
  { destruct (filtered d o1 p b1 W E1 start k1 v1 r1 G1 Hi1 R1) as [[-> Hs]|[s [i [ids [-> [Hr Rs]]]]]].
    - exists (b_g b2), f, f'. split; [|exact (conj Sn (conj W1 W2))]. destruct start as [s|]; [|reflexivity]. apply filter_unresolved.
      apply (same_resolve_none d (b_indices b1) _ f (node_count (b_g b1)) s N1 N2 Ix Bk); [|exact Lx | exact (Hs s eq_refl)].
      intros u v Hu Hv K. rewrite <- (proj2 (sn_there _ _ _ _ Sn u Hu)), K. exact (proj2 (sn_there _ _ _ _ Sn v Hv)).
    - pose proof (same_resolve d _ _ f _ s N1 N2 Ix Bk i Hr) as Hr2.
      assert (Hi : i < node_count (b_g b1)) by (destruct (resolve_in _ _ _ _ Hr) as [n I]; apply (L_build1.sget_In _ _ _ N1) in I; exact (Lx _ _ I)).
      destruct (filter_restricts d (b_indices b2) s (f i) (b_g b2) W2 Hr2 (proj1 (sn_there _ _ _ _ Sn i Hi))) as [r2 [ids2 [E Rs2]]]. destruct (same_restricted _ _ f f' i r1 r2 ids ids2 Sn W1 W2 Hi Rs Rs2) as [h [h' Sh]].
      exists r2, h, h'. split; [exact E|]. split; [exact Sh|]. split; [exact (rs_wf _ _ _ _ Rs) | exact (rs_wf _ _ _ _ Rs2)]. }
  destruct Fl as [r2 [h [h' [R2 [Sh [V1 V2]]]]]]. unfold finish. rewrite R2. cbn [bind].
  destruct (same_max _ r1 r2 h h' h1 cs Sh V1 V2 (filtered_u64 d o1 start p b1 r1 W F1 Sz E1 R1) M1) as [h2 [cs2 [M2 [Sm Gr]]]]. rewrite <- (same_info d o1 o2 p q b1 b2 W S F1 F2 E1 E2), M2. cbn [bind].
  rewrite (same_ambiguous d o1 o2 p q b1 b2 W S E1 E2) in S1. destruct (same_shorten d _ h1 h2 h h' x Sm S1) as [x2 [S2 Ss]]. rewrite S2. cbn [bind]. exists x2, cs2, h, h'. split; [reflexivity|]. split; assumption.
Qed.

(** * The list *)
Lemma same_nodes_perm g1 g2 f f' : same_nodes g1 g2 f f' -> Permutation (gnodes g1) (gnodes g2).
Proof.
  intros Sn. assert (P : Permutation (map f (seq 0 (node_count g1))) (seq 0 (node_count g2))).
  { apply NoDup_Permutation; [|apply seq_NoDup|].
    - assert (J : forall x y, In x (seq 0 (node_count g1)) -> In y (seq 0 (node_count g1)) -> f x = f y -> x = y).
      { intros x y Hx Hy K. apply in_seq in Hx, Hy. rewrite <- (proj2 (sn_there _ _ _ _ Sn x ltac:(lia))), K. apply (sn_there _ _ _ _ Sn y). lia. }
      pose proof (seq_NoDup (node_count g1) 0) as N. induction N as [|a l Na N IH]; [constructor|]. cbn [map]. constructor; [|apply IH; intros x y Hx Hy; apply J; right; assumption].
      intros K. apply in_map_iff in K. destruct K as [y [K1 K2]]. apply Na. rewrite <- (J y a (or_intror K2) (or_introl eq_refl) K1). exact K2.
    - intros y. rewrite in_map_iff, in_seq. split.
      + intros [x [<- Hx]]. apply in_seq in Hx. pose proof (sn_there _ _ _ _ Sn x). lia.
      + intros Hy. exists (f' y). destruct (sn_back _ _ _ _ Sn y) as [L K]; [lia|]. split; [exact K | apply in_seq; lia]. }
  assert (M : forall (l : list node), map (nth_error l) (seq 0 (length l)) = map Some l).
  { induction l as [|a l IH]; [reflexivity|]. cbn [length seq map]. f_equal. rewrite <- seq_shift, map_map. exact IH. }
  assert (Q : Permutation (map Some (gnodes g1)) (map Some (gnodes g2))).
  { rewrite <- !M. rewrite <- (Permutation_map (nth_error (gnodes g2)) P), map_map. apply Permutation_refl'. apply map_ext_in. intros v Hv. apply in_seq in Hv. symmetry. apply (sn_nodes _ _ _ _ Sn). lia. }
  apply Permutation_map_inv in Q. destruct Q as [l [E Q]]. assert (gnodes g1 = l) as ->; [|now symmetry].
  clear - E. revert l E. induction (gnodes g1) as [|a r IH]; intros [|b l] E; try discriminate E; [reflexivity|]. cbn in E. injection E as -> E. f_equal. exact (IH l E).
Qed.
Lemma sorted_unique : forall l1 l2 : list N, StronglySorted (fun a b => (b <= a)%N) l1 -> StronglySorted (fun a b => (b <= a)%N) l2 -> Permutation l1 l2 -> l1 = l2.
Proof.
  induction l1 as [|a l1 IH]; intros l2 S1 S2 P; [apply Permutation_nil in P; now subst|]. destruct l2 as [|b l2]; [apply Permutation_sym, Permutation_nil in P; discriminate P|].
  inversion S1 as [|? ? T1 A1]; subst. inversion S2 as [|? ? T2 A2]; subst. rewrite Forall_forall in A1, A2.
  assert (a = b) as <-.
  { assert (Ib : In b (a :: l1)) by (apply (Permutation_in _ (Permutation_sym P)); left; reflexivity). assert (Ia : In a (b :: l2)) by (apply (Permutation_in _ P); left; reflexivity).
    destruct Ib as [Ib|Ib]; [exact Ib|]. destruct Ia as [Ia|Ia]; [symmetry; exact Ia|]. specialize (A1 _ Ib). specialize (A2 _ Ia). lia. }
  f_equal. exact (IH l2 T1 T2 (Permutation_cons_inv P)).
Qed.
Lemma same_list demangle g1 g2 f f' : same_nodes g1 g2 f f' -> (forall nd, In nd (gnodes g1) -> one_line (demangle (nname nd))) ->
  exists mx r1 r2, read_top (top demangle g1) = Some (mx, r1) /\ read_top (top demangle g2) = Some (mx, r2) /\ Permutation r1 r2 /\ map fst r1 = map fst r2.
Proof.
  intros Sn H1. pose proof (same_nodes_perm _ _ _ _ Sn) as P. assert (H2 : forall nd, In nd (gnodes g2) -> one_line (demangle (nname nd))) by (intros nd I; apply H1; apply (Permutation_in _ (Permutation_sym P)); exact I).
  destruct (top_rows demangle g1 H1) as [m1 [l1 [R1 [P1 [S1 _]]]]]. destruct (top_rows demangle g2 H2) as [m2 [l2 [R2 [P2 [S2 _]]]]].
  assert (m1 = m2) as <-.
  { destruct (top_max_line demangle g1 H1) as [x1 [y1 [Q1 X1]]]. destruct (top_max_line demangle g2 H2) as [x2 [y2 [Q2 X2]]]. rewrite R1 in Q1. rewrite R2 in Q2. injection Q1 as <- _. injection Q2 as <- _.
    destruct m1 as [n1|], m2 as [n2|]; try reflexivity.
    - destruct X1 as [[a [Ia Ea]] B1], X2 as [[b [Ib Eb]] B2]. apply (Permutation_in _ P) in Ia. apply (Permutation_in _ (Permutation_sym P)) in Ib. specialize (B1 _ Ib). specialize (B2 _ Ia). f_equal. lia.
    - destruct X1 as [[a [Ia _]] _]. apply (Permutation_in _ P) in Ia. rewrite X2 in Ia. destruct Ia.
    - destruct X2 as [[b [Ib _]] _]. apply (Permutation_in _ (Permutation_sym P)) in Ib. rewrite X1 in Ib. destruct Ib. }
  eexists. eexists. eexists. split; [exact R1|]. split; [exact R2|].
  assert (Pl : Permutation l1 l2) by (rewrite <- P1, <- P2; exact P). split; [apply Permutation_map; exact Pl|]. rewrite !map_map. cbn [fst].
  assert (Sm : forall l, StronglySorted (fun a b => (S_render.usage b <= S_render.usage a)%N) l -> StronglySorted (fun a b => (b <= a)%N) (map S_render.usage l)).
  { induction 1 as [|a l T IH A]; [constructor|]. cbn [map]. constructor; [exact IH|]. rewrite Forall_forall in *. intros y I. apply in_map_iff in I. destruct I as [x [<- I]]. exact (A x I). }
  apply sorted_unique; [exact (Sm l1 S1) | exact (Sm l2 S2) | apply Permutation_map; exact Pl].
Qed.
