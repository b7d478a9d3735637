(** Correctness of the start point filter. *)
From Verif Require Import M_base M_stack M_graph M_analysis M_filter S_graph S_filter
  L_base L_trav L_kosaraju L_topo L_charge L_analysis L_maxprops.

Lemma nget_In m i k : nget m i = Some k -> In (i, k) m.
Proof.
  induction m as [|[a b] m IH]; simpl; [discriminate|].
  destruct (Nat.eqb_spec a i) as [->|Hne]; intros H.
  - inversion H; subst. left; reflexivity.
  - right; auto.
Qed.

Section Filter.
Variable g : graph node.
Hypothesis Hwf : wf_graph g.

(** [ids] lists the original nodes copied so far, in order. *)
Record Ok (st : graph node * list (nat * nat)) (ids : list nat) : Prop := {
  ok_nd : NoDup ids;
  ok_nodes : map Some (gnodes (fst st)) = map (nth_error (gnodes g)) ids;
  ok_map : forall i k, nget (snd st) i = Some k <-> nth_error ids k = Some i
}.

Lemma Ok_len st ids : Ok st ids -> length ids = length (gnodes (fst st)).
Proof. intros [_ H _]. apply (f_equal (@length _)) in H. rewrite !map_length in H. auto. Qed.

Lemma nth_error_snoc {A} (l : list A) x k y :
  nth_error (l ++ [x]) k = Some y <-> nth_error l k = Some y \/ (k = length l /\ x = y).
Proof.
  destruct (lt_eq_lt_dec k (length l)) as [[H|H]|H].
  - rewrite nth_error_app1 by exact H. split; [auto|]. intros [H1|[H1 _]]; [exact H1 | lia].
  - subst. rewrite nth_error_app2, Nat.sub_diag by lia. simpl.
    assert (nth_error l (length l) = None) as -> by (apply nth_error_None; lia).
    split; [intros H; inversion H; auto | intros [H|[_ ->]]; [discriminate | reflexivity]].
  - assert (nth_error (l ++ [x]) k = None) as ->.
    { apply nth_error_None. rewrite app_length; simpl; lia. }
    assert (nth_error l k = None) as -> by (apply nth_error_None; lia).
    split; [discriminate|]. intros [H1|[H1 _]]; [discriminate | lia].
Qed.

Lemma intern_spec st ids i : Ok st ids -> i < node_count g ->
  exists g2 m k ids', intern g st i = Ret (g2, m, k) /\ Ok (g2, m) ids' /\
    gedges g2 = gedges (fst st) /\ nth_error ids' k = Some i /\
    (ids' = ids \/ (ids' = ids ++ [i] /\ ~ In i ids)).
Proof.
  intros HO Hi. pose proof (Ok_len st ids HO) as Hlen. destruct HO as [H1 H2 H3]. destruct st as [g2 m].
  unfold intern. simpl in *. destruct (nget m i) as [k|] eqn:Hg.
  - exists g2, m, k, ids. split; [reflexivity|]. split; [split; auto|].
    split; [reflexivity|]. split; [apply H3; exact Hg | left; reflexivity].
  - destruct (nth_error (gnodes g) i) as [nd|] eqn:Hn.
    2: { apply nth_error_None in Hn. unfold node_count in Hi. lia. }
    assert (Hni : ~ In i ids).
    { intros Hc. apply In_nth_error in Hc as [k Hk]. apply H3 in Hk. congruence. }
    exists (mkG (gnodes g2 ++ [nd]) (gedges g2)), ((i, length (gnodes g2)) :: m), (length (gnodes g2)), (ids ++ [i]).
    split; [reflexivity|]. split; [split|].
    + apply NoDup_app_intro; auto; [constructor; [intros [] | constructor]|].
      intros x Hx [<-|[]]. contradiction.
    + simpl. rewrite !map_app, H2. simpl. rewrite Hn. reflexivity.
    + intros a k. simpl. rewrite nth_error_snoc. destruct (Nat.eqb_spec i a) as [->|Hne].
      * rewrite Hlen. split.
        -- intros H; inversion H; subst. right; auto.
        -- intros [H|[-> _]]; [exfalso; apply Hni; eapply nth_error_In; eauto | reflexivity].
      * rewrite H3. split; [auto|]. intros [H|[_ H]]; [exact H | congruence].
    + split; [reflexivity|]. split.
      * apply nth_error_snoc. right; auto.
      * right; split; auto.
Qed.

(** Position of a node in [ids]. *)
Fixpoint pos (ids : list nat) (v : nat) : nat :=
  match ids with
  | [] => 0
  | x :: l => if Nat.eqb x v then 0 else S (pos l v)
  end.

Lemma pos_nth ids v : In v ids -> nth_error ids (pos ids v) = Some v.
Proof.
  induction ids as [|x l IH]; intros H; [destruct H|]. simpl.
  destruct (Nat.eqb_spec x v) as [->|Hne]; [reflexivity|]. destruct H as [H|H]; [congruence|]. simpl. auto.
Qed.

Lemma pos_unique ids v k : NoDup ids -> nth_error ids k = Some v -> pos ids v = k.
Proof.
  intros Hnd Hk. assert (Hin : In v ids) by (eapply nth_error_In; eauto).
  apply (proj1 (NoDup_nth_error ids) Hnd).
  - apply nth_error_Some. rewrite pos_nth by exact Hin. discriminate.
  - rewrite pos_nth by exact Hin. congruence.
Qed.

Lemma pos_app ids x v : In v ids -> pos (ids ++ [x]) v = pos ids v.
Proof.
  induction ids as [|y l IH]; intros H; [destruct H|]. simpl.
  destruct (Nat.eqb_spec y v); [reflexivity|]. destruct H as [H|H]; [congruence|]. rewrite IH by exact H. reflexivity.
Qed.

Definition edges_of (ids : list nat) (done : list nat) : list (nat * nat) :=
  flat_map (fun a => map (fun b => (pos ids a, pos ids b)) (out_nbrs g a)) done.

Lemma map_pos_app ids x a bs : In a ids -> (forall b, In b bs -> In b ids) ->
  map (fun b => (pos (ids ++ [x]) a, pos (ids ++ [x]) b)) bs = map (fun b => (pos ids a, pos ids b)) bs.
Proof.
  intros Ha Hb. apply map_ext_in. intros b Hin. rewrite !pos_app by auto. reflexivity.
Qed.

Lemma copy_callees_spec caller : forall callees st ids pre,
  Ok st ids -> In caller ids -> (forall b, In b callees -> b < node_count g) ->
  gedges (fst st) = pre ->
  (forall b, In b callees -> calls g caller b) ->
  exists g2 m new,
    copy_callees g (pos ids caller) callees st = Ret (g2, m) /\
    Ok (g2, m) (ids ++ new) /\ (forall b, In b callees -> In b (ids ++ new)) /\
    (forall b, In b new -> In b callees) /\
    gedges g2 = pre ++ map (fun b => (pos (ids ++ new) caller, pos (ids ++ new) b)) callees.
Proof.
  induction callees as [|b rest IH]; intros st ids pre HO Hc Hlt Hpre Hcalls; simpl.
  - destruct st as [g2 m]. exists g2, m, []. rewrite !app_nil_r. simpl in *.
    repeat split; auto; try apply HO; intros b [].
  - destruct (intern_spec st ids b HO (Hlt b (or_introl eq_refl))) as [g2 [m [k [ids' [-> [HO' [He [Hk Hids]]]]]]]].
    cbn [bind].
    assert (Hpos : pos ids' b = k) by (apply pos_unique; [apply HO' | exact Hk]).
    assert (Hcaller : In caller ids').
    { destruct Hids as [->|[-> _]]; [exact Hc | apply in_or_app; left; exact Hc]. }
    assert (Hposc : pos ids' caller = pos ids caller).
    { destruct Hids as [->|[-> _]]; [reflexivity | apply pos_app; exact Hc]. }
    assert (HO'' : Ok (add_edge g2 (pos ids caller) k, m) ids').
    { destruct HO' as [A1 A2 A3]. split; auto. }
    destruct (IH (add_edge g2 (pos ids caller) k, m) ids' (pre ++ [(pos ids caller, k)]) HO'' Hcaller)
      as [g3 [m3 [new [H1 [H2 [H3 [H4 H5]]]]]]].
    + intros x Hx; apply Hlt; right; exact Hx.
    + simpl. rewrite He, Hpre. reflexivity.
    + intros x Hx; apply Hcalls; right; exact Hx.
    + rewrite Hposc in H1. exists g3, m3.
      assert (Hpe : forall x, In x ids' -> pos (ids' ++ new) x = pos ids' x).
      { clear. intros x Hx. revert ids' Hx. induction new as [|y new IHn] using rev_ind; intros ids' Hx.
        - rewrite app_nil_r; reflexivity.
        - rewrite app_assoc, pos_app by (apply in_or_app; left; exact Hx). apply IHn; exact Hx. }
      assert (Hb : In b ids') by (eapply nth_error_In; eauto).
      destruct Hids as [->|[-> Hni]].
      * exists new. split; [exact H1|]. split; [exact H2|].
        split; [intros x [<-|Hx]; [apply in_or_app; left; exact Hb | apply H3; exact Hx]|].
        split; [intros x Hx; right; apply H4; exact Hx|].
        rewrite H5, <- app_assoc. simpl. rewrite !Hpe by assumption. rewrite Hpos. reflexivity.
      * exists (b :: new).
        assert (Heq : ids ++ b :: new = (ids ++ [b]) ++ new) by (rewrite <- app_assoc; reflexivity).
        rewrite Heq. split; [exact H1|]. split; [exact H2|].
        split; [intros x [<-|Hx]; [apply in_or_app; left; exact Hb | apply H3; exact Hx]|].
        split; [intros x [<-|Hx]; [left; reflexivity | right; apply H4; exact Hx]|].
        rewrite H5, <- app_assoc. simpl. rewrite !Hpe by assumption. rewrite Hpos, Hposc. reflexivity.
Qed.

Lemma edges_of_app ids new done :
  (forall a, In a done -> In a ids /\ forall b, calls g a b -> In b ids) ->
  edges_of (ids ++ new) done = edges_of ids done.
Proof.
  intros H. unfold edges_of. induction done as [|a done IH]; simpl; [reflexivity|].
  rewrite IH by (intros x Hx; apply H; right; exact Hx). f_equal.
  destruct (H a (or_introl eq_refl)) as [Ha Hb].
  assert (Hp : forall x, In x ids -> pos (ids ++ new) x = pos ids x).
  { clear. intros x Hx. revert ids Hx. induction new as [|y new IHn] using rev_ind; intros ids Hx.
    - rewrite app_nil_r; reflexivity.
    - rewrite app_assoc, pos_app by (apply in_or_app; left; exact Hx). apply IHn; exact Hx. }
  apply map_ext_in. intros b Hbin. apply out_nbrs_In in Hbin. rewrite !Hp; auto.
Qed.

Lemma copy_callers_spec (R : nat -> Prop) : forall callers st ids done,
  (forall u v, R u -> calls g u v -> R v) ->
  (forall v, R v -> v < node_count g) ->
  (forall a, In a callers -> R a) -> (forall a, In a ids -> R a) ->
  Ok st ids ->
  (forall a, In a done -> In a ids /\ forall b, calls g a b -> In b ids) ->
  gedges (fst st) = edges_of ids done ->
  exists g2 m new,
    copy_callers g callers st = Ret (g2, m) /\ Ok (g2, m) (ids ++ new) /\
    (forall a, In a (ids ++ new) -> R a) /\
    (forall a, In a (done ++ callers) -> In a (ids ++ new) /\ forall b, calls g a b -> In b (ids ++ new)) /\
    gedges g2 = edges_of (ids ++ new) (done ++ callers).
Proof.
  induction callers as [|c rest IH]; intros st ids done HR1 HR2 HRc HRi HO Hdone He; simpl.
  - destruct st as [g2 m]. exists g2, m, []. rewrite !app_nil_r. simpl in He. repeat split; auto; try apply HO.
    + apply Hdone; exact H.
    + apply Hdone; exact H.
  - assert (Hc : R c) by (apply HRc; left; reflexivity).
    destruct (intern_spec st ids c HO (HR2 c Hc)) as [g2 [m [k [ids' [-> [HO' [He' [Hk Hids]]]]]]]].
    cbn [bind].
    assert (Hcin : In c ids') by (eapply nth_error_In; eauto).
    assert (Hk' : pos ids' c = k) by (apply pos_unique; [apply HO' | exact Hk]). subst k.
    assert (Hids' : exists n0, ids' = ids ++ n0 /\ forall a, In a ids' -> R a).
    { destruct Hids as [->|[-> _]].
      - exists []. rewrite app_nil_r. split; auto.
      - exists [c]. split; [reflexivity|]. intros a Ha. apply in_app_or in Ha as [Ha|[<-|[]]]; auto. }
    destruct Hids' as [n0 [Hn0 HRi']].
    destruct (copy_callees_spec c (out_nbrs g c) (g2, m) ids' (edges_of ids done) HO' Hcin)
      as [g3 [m3 [new [-> [H2 [H3 [H4 H5]]]]]]].
    + intros b Hb. apply out_nbrs_In in Hb. apply Hwf in Hb. tauto.
    + simpl. rewrite He'. exact He.
    + intros b Hb. apply out_nbrs_In; exact Hb.
    + cbn [bind].
      assert (HRn : forall a, In a (ids' ++ new) -> R a).
      { intros a Ha. apply in_app_or in Ha as [Ha|Ha]; [auto|]. apply H4 in Ha. apply out_nbrs_In in Ha. eauto. }
      assert (Hdone' : forall a, In a (done ++ [c]) -> In a (ids' ++ new) /\ forall b, calls g a b -> In b (ids' ++ new)).
      { intros a Ha. apply in_app_or in Ha as [Ha|[<-|[]]].
        - destruct (Hdone a Ha) as [Ha1 Ha2]. subst ids'. rewrite <- app_assoc.
          split; [apply in_or_app; left; exact Ha1|]. intros b Hb. apply in_or_app; left; apply Ha2; exact Hb.
        - split; [apply in_or_app; left; exact Hcin|]. intros b Hb. apply H3. apply out_nbrs_In; exact Hb. }
      destruct (IH (g3, m3) (ids' ++ new) (done ++ [c])) as [g4 [m4 [new4 [K1 [K2 [K3 [K4 K5]]]]]]]; auto.
      * intros a Ha; apply HRc; right; exact Ha.
      * simpl. rewrite H5. unfold edges_of at 2. rewrite flat_map_app. simpl. rewrite app_nil_r. f_equal.
        symmetry. subst ids'. rewrite <- app_assoc. apply edges_of_app. exact Hdone.
      * exists g4, m4, (n0 ++ new ++ new4).
        assert (Heq : ids ++ n0 ++ new ++ new4 = (ids' ++ new) ++ new4) by (subst ids'; rewrite <- !app_assoc; reflexivity).
        rewrite Heq. split; [exact K1|]. split; [exact K2|]. split; [exact K3|].
        assert (Hd : done ++ c :: rest = (done ++ [c]) ++ rest) by (rewrite <- app_assoc; reflexivity).
        rewrite Hd. split; [exact K4 | exact K5].
Qed.

Lemma count_map_inj {A B} (dA : forall a b : A, {a = b} + {a <> b}) (dB : forall a b : B, {a = b} + {a <> b})
  (f : A -> B) l x : (forall y, In y l -> f y = f x -> y = x) ->
  count_occ dB (map f l) (f x) = count_occ dA l x.
Proof.
  induction l as [|y l IH]; intros H; simpl; [reflexivity|].
  rewrite IH by (intros z Hz; apply H; right; exact Hz).
  destruct (dB (f y) (f x)) as [E|E], (dA y x) as [E'|E']; auto.
  - exfalso; apply E', H; [left; reflexivity | exact E].
  - subst; congruence.
Qed.

Lemma count_out u v : count_occ Nat.eq_dec (out_nbrs g u) v = count_occ edge_dec (gedges g) (u, v).
Proof.
  unfold out_nbrs. rewrite count_occ_rev.
  induction (gedges g) as [|[a b] l IH]; [reflexivity|]. cbn [filter fst].
  destruct (Nat.eqb_spec a u) as [->|Hne]; cbn [map snd count_occ].
  - destruct (edge_dec (u, b) (u, v)) as [E|E]; destruct (Nat.eq_dec b v) as [->|Hb]; try congruence; rewrite IH; auto.
  - destruct (edge_dec (a, b) (u, v)); [congruence | exact IH].
Qed.

Lemma count_app {A} (d : forall a b : A, {a = b} + {a <> b}) l1 l2 x :
  count_occ d (l1 ++ l2) x = count_occ d l1 x + count_occ d l2 x.
Proof. induction l1 as [|y l1 IH]; simpl; [reflexivity|]. destruct (d y x); simpl; rewrite IH; reflexivity. Qed.

Lemma count_edges ids done u v : NoDup ids -> NoDup done ->
  (forall a, In a done -> In a ids /\ forall b, calls g a b -> In b ids) ->
  In u done -> In v ids ->
  count_occ edge_dec (edges_of ids done) (pos ids u, pos ids v) = count_occ edge_dec (gedges g) (u, v).
Proof.
  intros Hnd Hndd Hdone Hu Hv. rewrite <- count_out.
  assert (Hinj : forall x y, In x ids -> In y ids -> pos ids x = pos ids y -> x = y).
  { intros x y Hx Hy H. pose proof (pos_nth ids x Hx). pose proof (pos_nth ids y Hy). congruence. }
  assert (Hz : forall done, ~ In u done -> (forall a, In a done -> In a ids) -> In u ids ->
            count_occ edge_dec (edges_of ids done) (pos ids u, pos ids v) = 0).
  { intros d Hn Hd Hui. apply count_occ_not_In. intros Hc. unfold edges_of in Hc.
    apply in_flat_map in Hc as [a [Ha Hb]]. apply in_map_iff in Hb as [b [Hb _]]. inversion Hb.
    apply Hinj in H0; auto. subst. contradiction. }
  induction done as [|a done IH]; [destruct Hu|].
  change (edges_of ids (a :: done)) with
    (map (fun b => (pos ids a, pos ids b)) (out_nbrs g a) ++ edges_of ids done).
  rewrite count_app. inversion Hndd; subst.
  destruct (Hdone a (or_introl eq_refl)) as [Ha1 Ha2].
  destruct (Nat.eq_dec a u) as [->|Hne].
  - rewrite Hz; auto.
    + rewrite Nat.add_0_r.
      apply (count_map_inj Nat.eq_dec edge_dec (fun b => (pos ids u, pos ids b))).
      intros y Hy H. inversion H. apply Hinj; auto. apply Ha2. apply out_nbrs_In; exact Hy.
    + intros x Hx. apply Hdone; right; exact Hx.
  - rewrite IH; auto.
    + rewrite (proj1 (count_occ_not_In edge_dec _ _)); [reflexivity|].
      intros Hc. apply in_map_iff in Hc as [b [Hb _]]. inversion Hb.
      apply Hne. apply Hinj; auto. destruct Hu as [Hu|Hu]; [congruence|]. apply Hdone; right; exact Hu.
    + intros x Hx; apply Hdone; right; exact Hx.
    + destruct Hu as [Hu|Hu]; [congruence | exact Hu].
Qed.

Theorem reachable_subgraph_correct start : start < node_count g ->
  exists g2 ids, reachable_subgraph g start = Ret g2 /\ restricted g start g2 ids.
Proof.
  intros Hs. unfold reachable_subgraph.
  assert (Hnb : forall u v, u < node_count g -> In v (out_nbrs g u) -> v < node_count g).
  { intros a b _ Hb. apply out_nbrs_In in Hb. apply Hwf in Hb. tauto. }
  destruct (dfs_run_fuel (out_nbrs g) (node_count g) Hnb (trav_fuel g) [start] [] []) as [[order disc] Hrun].
  { intros x [<-|[]]; exact Hs. }
  { rewrite pend_nil. pose proof (out_degree_sum g (node_count g)). unfold trav_fuel. cbn [length]. lia. }
  rewrite Hrun.
  destruct (dfs_run_from (out_nbrs g) (trav_fuel g) start [] order disc) as [H1 [H2 [[rest H3] [H4 _]]]]; auto.
  specialize (H2 (NoDup_nil _)). rewrite app_nil_r in H1. subst disc.
  assert (Hndo : NoDup order) by (rewrite <- (rev_involutive order); apply NoDup_rev; exact H2).
  assert (Ho : forall x, In x order <-> reach g start x).
  { intros x. rewrite H4. rewrite (starF g). split; [tauto|]. intros H; split; [exact H | intros []]. }
  destruct (copy_callers_spec (reach g start) order (empty_graph, []) [] []) as [g2 [m [ids [K1 [K2 [K3 [K4 K5]]]]]]].
  - intros u v Hu Hv. eapply star_snoc; eauto.
  - intros v Hv. eapply star_lt; eauto.
  - intros a Ha. apply Ho; exact Ha.
  - intros a [].
  - split; simpl; [constructor | reflexivity|]. intros i k. split; [discriminate|]. destruct k; discriminate.
  - intros a [].
  - reflexivity.
  - simpl in *. rewrite K1. cbn [bind]. exists g2, ids. split; [reflexivity|].
    assert (Hin : forall v, In v ids <-> reach g start v).
    { intros v. split; [apply K3|]. intros Hv. apply K4. apply Ho; exact Hv. }
    pose proof (Ok_len _ _ K2) as Hlen. destruct K2 as [A1 A2 A3]. simpl in *.
    split; auto.
    + (* the first copied node is start *)
      rewrite H3 in K1. simpl in K1.
      destruct (nth_error (gnodes g) start) as [ns|] eqn:Hns.
      2: { apply nth_error_None in Hns. unfold node_count in Hs. lia. }
      cbn [bind] in K1.
      assert (Hmono : forall l c2 s s', copy_callees g c2 l s = Ret s' -> forall i k, nget (snd s) i = Some k -> nget (snd s') i = Some k).
      { clear. induction l as [|b l IH]; intros c2 s s' H i k Hk; simpl in H.
        - inversion H; subst; exact Hk.
        - apply bind_Ret in H as [[[gx mx] kx] [Hi H]]. eapply IH; [exact H|]. simpl.
          destruct s as [g0 m0]. unfold intern in Hi. simpl in *. destruct (nget m0 b) eqn:Hb.
          + inversion Hi; subst; exact Hk.
          + destruct (nth_error (gnodes g) b); [|discriminate]. inversion Hi; subst. simpl.
            destruct (Nat.eqb_spec b i); [congruence | exact Hk]. }
      assert (Hmono2 : forall l s s', copy_callers g l s = Ret s' -> forall i k, nget (snd s) i = Some k -> nget (snd s') i = Some k).
      { clear - Hmono. induction l as [|b l IH]; intros s s' H i k Hk; simpl in H.
        - inversion H; subst; exact Hk.
        - apply bind_Ret in H as [[[gx mx] kx] [Hi H]]. apply bind_Ret in H as [s1 [Hc H]].
          eapply IH; [exact H|]. eapply Hmono; [exact Hc|]. simpl.
          destruct s as [g0 m0]. unfold intern in Hi. simpl in *. destruct (nget m0 b) eqn:Hb.
          + inversion Hi; subst; exact Hk.
          + destruct (nth_error (gnodes g) b); [|discriminate]. inversion Hi; subst. simpl.
            destruct (Nat.eqb_spec b i); [congruence | exact Hk]. }
      apply A3. apply bind_Ret in K1 as [s1 [Hc K1]].
      apply (Hmono2 _ _ _ K1). apply (Hmono _ _ _ _ Hc). simpl. rewrite Nat.eqb_refl. reflexivity.
    + intros k v Hk. apply (f_equal (fun l => nth_error l k)) in A2. rewrite !nth_error_map in A2.
      rewrite Hk in A2. simpl in A2. destruct (nth_error (gnodes g2) k); simpl in A2; congruence.
    + intros a b Hab. unfold calls in Hab. rewrite K5 in Hab. unfold edges_of in Hab.
      apply in_flat_map in Hab as [x [Hx Hab]]. apply in_map_iff in Hab as [y [Hy Hxy]]. inversion Hy; subst.
      apply out_nbrs_In in Hxy. destruct (K4 x Hx) as [Hx1 Hx2]. unfold node_count. rewrite <- Hlen.
      split; apply nth_error_Some; rewrite pos_nth; auto; try discriminate.
    + intros k l u v Hk Hl. rewrite K5.
      rewrite <- (pos_unique ids u k A1 Hk), <- (pos_unique ids v l A1 Hl).
      apply count_edges; auto.
      * apply Ho, Hin. eapply nth_error_In; eauto.
      * eapply nth_error_In; eauto.
Qed.
End Filter.
