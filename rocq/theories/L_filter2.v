(** The start point filter keeps the maxima; resolution of the start point. *)
From Verif Require Import M_base M_stack M_graph M_analysis M_filter S_graph S_mono S_filter
  L_base L_trav L_kosaraju L_topo L_charge L_analysis L_maxprops L_mono L_filter.

(** ** Restricting a graph to a set closed under calls *)
Section Restrict.
Variables (g g2 : graph node) (start : nat) (ids : list nat).
Hypothesis Hwf : wf_graph g.
Hypothesis HR : restricted g start g2 ids.
Local Notation f k := (nth k ids 0).
Local Notation n2 := (node_count g2).

Lemma rs_nth k : k < n2 -> nth_error ids k = Some (f k).
Proof. intros H. apply nth_error_nth'. rewrite (rs_count _ _ _ _ HR). exact H. Qed.

Lemma rs_calls k l : k < n2 -> l < n2 -> (calls g2 k l <-> calls g (f k) (f l)).
Proof.
  intros Hk Hl. unfold calls.
  rewrite (count_occ_In edge_dec (gedges g2)), (count_occ_In edge_dec (gedges g)).
  rewrite (rs_edges _ _ _ _ HR k l (f k) (f l)); [reflexivity | apply rs_nth; auto | apply rs_nth; auto].
Qed.

Lemma rs_closed k b : k < n2 -> calls g (f k) b -> exists l, l < n2 /\ f l = b.
Proof.
  intros Hk Hc.
  assert (Hb : In b ids).
  { apply (rs_reach _ _ _ _ HR). eapply star_snoc; [|exact Hc].
    apply (rs_reach _ _ _ _ HR). eapply nth_error_In. apply rs_nth; exact Hk. }
  apply (In_nth _ _ 0) in Hb as [l [Hl Hlb]]. rewrite (rs_count _ _ _ _ HR) in Hl. eauto.
Qed.

Lemma rs_inj k l : k < n2 -> l < n2 -> f k = f l -> k = l.
Proof.
  intros Hk Hl H. apply (proj1 (NoDup_nth ids 0) (rs_nodup _ _ _ _ HR)); auto;
    rewrite (rs_count _ _ _ _ HR); auto.
Qed.

Lemma rs_local k : k < n2 -> local_of g2 k = local_of g (f k).
Proof. intros H. unfold local_of. rewrite (rs_nodes _ _ _ _ HR k (f k)); [reflexivity | apply rs_nth; exact H]. Qed.

Lemma rs_usage k : k < n2 -> known_usage g2 k = known_usage g (f k).
Proof. intros H. unfold known_usage. rewrite rs_local by exact H. reflexivity. Qed.

Lemma rs_reach_fwd k l : reach g2 k l -> k < n2 -> reach g (f k) (f l).
Proof.
  induction 1 as [k|k x l Hkx Hxl IH]; intros Hk; [constructor|].
  pose proof (rs_wf _ _ _ _ HR _ _ Hkx) as [_ Hx]. eapply star_step; [|apply IH; exact Hx].
  apply rs_calls; auto.
Qed.

Lemma rs_reach_bwd u v : reach g u v -> forall k, k < n2 -> f k = u -> exists l, l < n2 /\ f l = v /\ reach g2 k l.
Proof.
  induction 1 as [u|u x v Hux Hxv IH]; intros k Hk Hf.
  - exists k. repeat split; auto. constructor.
  - subst u. destruct (rs_closed k x Hk Hux) as [y [Hy <-]].
    destruct (IH y Hy eq_refl) as [l [Hl [Hlv Hr]]]. exists l. repeat split; auto.
    eapply star_step; [|exact Hr]. apply rs_calls; auto.
Qed.

Lemma rs_reach_iff k l : k < n2 -> l < n2 -> (reach g2 k l <-> reach g (f k) (f l)).
Proof.
  intros Hk Hl. split; [intros; apply rs_reach_fwd; auto|]. intros H.
  destruct (rs_reach_bwd _ _ H k Hk eq_refl) as [l' [Hl' [He Hr]]].
  apply rs_inj in He; auto. subst; exact Hr.
Qed.

Lemma rs_mutual k l : k < n2 -> l < n2 -> (mutual g2 k l <-> mutual g (f k) (f l)).
Proof. intros Hk Hl. unfold mutual. rewrite !rs_reach_iff by auto. reflexivity. Qed.

Lemma rs_chain_fwd k p : chain g2 k p -> chain g (f k) (map (fun x => f x) p).
Proof.
  induction 1 as [k Hk|k l p Hc Hp IH]; simpl.
  - constructor. eapply star_lt_rev with (v := f k); [exact Hwf | constructor|].
    assert (In (f k) ids) by (eapply nth_error_In; apply rs_nth; exact Hk).
    apply (rs_reach _ _ _ _ HR) in H.
    destruct (nth_error (gnodes g) (f k)) eqn:E.
    + apply nth_error_Some. congruence.
    + rewrite <- (rs_nodes _ _ _ _ HR k (f k)) in E by (apply rs_nth; exact Hk).
      apply nth_error_None in E. unfold node_count in Hk. lia.
  - pose proof (rs_wf _ _ _ _ HR _ _ Hc) as [Hk Hl]. econstructor; [|exact IH]. apply rs_calls; auto.
Qed.

Lemma rs_chain_bwd u p : chain g u p -> forall k, k < n2 -> f k = u ->
  exists p2, chain g2 k p2 /\ map (fun x => f x) p2 = p.
Proof.
  induction 1 as [u Hu|u w p Hc Hp IH]; intros k Hk Hf.
  - exists [k]. split; [constructor; exact Hk | simpl; congruence].
  - subst u. destruct (rs_closed k w Hk Hc) as [l [Hl <-]].
    destruct (IH l Hl eq_refl) as [p2 [Hp2 <-]].
    exists (k :: p2). split; [|reflexivity]. econstructor; [|exact Hp2]. apply rs_calls; auto.
Qed.

Lemma rs_total q : (forall x, In x q -> x < n2) ->
  total (known_usage g) (map (fun x => f x) q) = total (known_usage g2) q.
Proof.
  induction q as [|x q IH]; intros H; simpl; [reflexivity|].
  rewrite IH by (intros y Hy; apply H; right; exact Hy). rewrite rs_usage by (apply H; left; reflexivity). reflexivity.
Qed.

Lemma rs_opg q : (forall x, In x q -> x < n2) -> (one_per_group g2 q <-> one_per_group g (map (fun x => f x) q)).
Proof.
  induction q as [|x q IH]; intros H; simpl.
  - split; constructor.
  - assert (Hx : x < n2) by (apply H; left; reflexivity).
    assert (Hq : forall y, In y q -> y < n2) by (intros y Hy; apply H; right; exact Hy).
    split; intros Ho; inversion Ho; subst; (constructor; [|apply IH; auto]).
    + intros u Hu. apply in_map_iff in Hu as [y [<- Hy]]. rewrite <- rs_mutual; auto.
    + intros u Hu. rewrite rs_mutual; auto. apply H2. apply (in_map (fun x => f x)); exact Hu.
Qed.

Lemma sublist_map_inv {A B} (h : A -> B) q p : sublist q (map h p) -> exists q2, sublist q2 p /\ map h q2 = q.
Proof.
  revert q; induction p as [|x p IH]; simpl; intros q H.
  - inversion H; subst. exists []; split; [constructor | reflexivity].
  - inversion H; subst.
    + exists []; split; [constructor | reflexivity].
    + destruct (IH _ H2) as [q2 [Hq <-]]. exists (x :: q2). split; [constructor; exact Hq | reflexivity].
    + destruct (IH _ H2) as [q2 [Hq <-]]. exists q2. split; [constructor; exact Hq | reflexivity].
Qed.

Lemma sublist_map {A B} (h : A -> B) q p : sublist q p -> sublist (map h q) (map h p).
Proof. induction 1; simpl; constructor; auto. Qed.

Lemma rs_charge k n : k < n2 -> (charge g2 k n <-> charge g (f k) n).
Proof.
  intros Hk.
  assert (Hlt : forall p q, chain g2 k p -> sublist q p -> forall x, In x q -> x < n2).
  { intros p q Hp Hs x Hx. eapply chain_lt; [apply (rs_wf _ _ _ _ HR) | exact Hp | eapply sublist_In; eauto]. }
  split; intros [[p [q [Hp [Hs [Ho Hn]]]]] Hub]; split.
  - exists (map (fun x => f x) p), (map (fun x => f x) q). split; [apply rs_chain_fwd; exact Hp|].
    split; [apply sublist_map; exact Hs|]. split; [apply rs_opg; eauto|]. rewrite rs_total; eauto.
  - intros p' q' Hp' Hs' Ho'. destruct (rs_chain_bwd _ _ Hp' k Hk eq_refl) as [p2 [Hp2 <-]].
    apply sublist_map_inv in Hs' as [q2 [Hq2 <-]]. rewrite rs_total by eauto.
    eapply Hub; [exact Hp2 | exact Hq2 | apply rs_opg; eauto].
  - destruct (rs_chain_bwd _ _ Hp k Hk eq_refl) as [p2 [Hp2 <-]].
    apply sublist_map_inv in Hs as [q2 [Hq2 <-]]. exists p2, q2.
    split; [exact Hp2|]. split; [exact Hq2|]. split; [apply rs_opg; eauto|]. rewrite rs_total in Hn; eauto.
  - intros p' q' Hp' Hs' Ho'. rewrite <- rs_total by eauto.
    eapply Hub; [apply rs_chain_fwd; exact Hp' | apply sublist_map; exact Hs' | apply rs_opg; eauto].
Qed.

Lemma rs_recursive k : k < n2 -> (recursive g2 k <-> recursive g (f k)).
Proof.
  intros Hk. split.
  - intros [l [Hc Hr]]. pose proof (rs_wf _ _ _ _ HR _ _ Hc) as [_ Hl]. exists (f l).
    split; [apply rs_calls; auto | apply rs_reach_iff; auto].
  - intros [w [Hc Hr]]. destruct (rs_closed k w Hk Hc) as [l [Hl <-]]. exists l.
    split; [apply rs_calls; auto | apply rs_reach_iff; auto].
Qed.

Lemma rs_uncertain k : k < n2 -> (uncertain g2 k <-> uncertain g (f k)).
Proof.
  intros Hk.
  assert (Hlt : forall l, reach g2 k l -> l < n2) by (intros l Hl; eapply star_lt; [apply (rs_wf _ _ _ _ HR) | exact Hl | exact Hk]).
  split.
  - intros [[u [Hr Hu]]|[u [n [Hr [Hrec [Hkn Hn]]]]]].
    + left. exists (f u). split; [apply rs_reach_fwd; auto|]. unfold unknown. rewrite <- rs_local; auto.
    + right. exists (f u), n. split; [apply rs_reach_fwd; auto|].
      split; [apply rs_recursive; auto|]. split; [|exact Hn]. unfold known. rewrite <- rs_local; auto.
  - intros [[u [Hr Hu]]|[u [n [Hr [Hrec [Hkn Hn]]]]]].
    + destruct (rs_reach_bwd _ _ Hr k Hk eq_refl) as [l [Hl [<- Hrl]]].
      left. exists l. split; [exact Hrl|]. unfold unknown. rewrite rs_local; auto.
    + destruct (rs_reach_bwd _ _ Hr k Hk eq_refl) as [l [Hl [<- Hrl]]].
      right. exists l, n. split; [exact Hrl|]. split; [apply rs_recursive; auto|].
      split; [|exact Hn]. unfold known. rewrite rs_local; auto.
Qed.

Lemma rs_sum : (sum_known g2 <= sum_known g)%N.
Proof.
  unfold sum_known. rewrite <- rs_total by (intros x Hx; apply in_seq in Hx; lia).
  assert (Hm : map (fun x => f x) (seq 0 n2) = ids).
  { rewrite <- (rs_count _ _ _ _ HR). clear. induction ids as [|x l IH]; [reflexivity|].
    simpl. f_equal. rewrite <- seq_shift, map_map. exact IH. }
  rewrite Hm. apply total_sub; [apply (rs_nodup _ _ _ _ HR)|].
  intros v Hv. apply in_seq. split; [lia|]. simpl.
  apply (In_nth _ _ 0) in Hv as [k [Hk Hv]].
  destruct (nth_error (gnodes g) v) eqn:E.
  - apply nth_error_Some. congruence.
  - rewrite <- (rs_nodes _ _ _ _ HR k v) in E.
    + apply nth_error_None in E. rewrite (rs_count _ _ _ _ HR) in Hk. unfold node_count in Hk. lia.
    + rewrite <- Hv. apply nth_error_nth'. exact Hk.
Qed.
Lemma rs_view k : k < n2 -> same_view g2 g (fun x => f x) k.
Proof.
  intros Hk. assert (Lt : forall a, reach g2 k a -> a < n2) by (intros a Ha; eapply star_lt; [apply (rs_wf _ _ _ _ HR) | exact Ha | exact Hk]). split.
  - intros a b Ha Hb E. apply rs_inj; auto.
  - intros a Ha. symmetry. apply rs_local. auto.
  - intros a b Ha Hc. apply rs_calls; [auto | apply (rs_wf _ _ _ _ HR _ _ Hc) | exact Hc].
  - intros a y Ha Hc. destruct (rs_closed a y (Lt a Ha) Hc) as [l [Ll <-]]. exists l. split; [apply rs_calls; auto | reflexivity].
Qed.
Lemma rs_u64 : usages_u64 g -> usages_u64 g2.
Proof.
  intros U v n K. assert (L : v < n2).
  { unfold known, local_of in K. apply nth_error_Some. intros E. rewrite E in K. discriminate K. }
  apply (U (f v) n). unfold known. rewrite <- rs_local by exact L. exact K.
Qed.
End Restrict.

Lemma filter_keeps_maxima g start g2 ids g' cs g2' cs2 :
  wf_graph g -> usages_u64 g -> restricted g start g2 ids ->
  max_stack true g = Ret (g', cs) -> max_stack true g2 = Ret (g2', cs2) ->
  forall k v m, nth_error ids k = Some v -> (reported g2' k m <-> reported g' v m).
Proof.
  intros Hwf U HR Hrun Hrun2 k v m Hk.
  pose proof (rs_wf _ _ _ _ HR) as Hwf2.
  assert (Hk2 : k < node_count g2).
  { rewrite <- (rs_count _ _ _ _ HR). apply nth_error_Some. congruence. }
  assert (Hv : nth k ids 0 = v) by (apply nth_error_nth; exact Hk).
  assert (Hvn : v < node_count g).
  { unfold node_count. apply nth_error_Some. rewrite <- (rs_nodes _ _ _ _ HR k v Hk).
    apply nth_error_Some. exact Hk2. }
  destruct (max_stack_correct g Hwf) as [ga [ca [Ha1 [Ha2 Ha3]]]]. rewrite Ha1 in Hrun. inversion Hrun; subst ga ca.
  destruct (max_stack_correct g2 Hwf2) as [gb [cb [Hb1 [Hb2 Hb3]]]]. rewrite Hb1 in Hrun2. inversion Hrun2; subst gb cb.
  destruct (Ha3 v Hvn) as [m1 [Hm1 _]]. destruct (Hb3 k Hk2) as [m2 [Hm2 _]].
  assert (m2 = m1).
  { apply (view_decides g2 g (fun x => nth x ids 0) k g2' g' cs2 cs m2 m1 Hwf2 Hwf (rs_u64 g g2 start ids HR U) U (rs_view g g2 start ids HR k Hk2) Hb1 Ha1 Hm2). rewrite Hv. exact Hm1. }
  subst m2. split; intros H.
  - rewrite (reported_fun _ _ _ _ H Hm2). exact Hm1.
  - rewrite (reported_fun _ _ _ _ H Hm1). exact Hm2.
Qed.

(** ** Resolution *)
Lemma sget_In {A} (m : list (str * A)) k a : sget m k = Some a -> In (k, a) m.
Proof.
  induction m as [|[x b] m IH]; simpl; [discriminate|].
  destruct (str_eqb_spec x k) as [->|Hne]; intros H.
  - inversion H; subst. left; reflexivity.
  - right; auto.
Qed.

Lemma sget_unique {A} (m : list (str * A)) k a : NoDup (map fst m) -> In (k, a) m -> sget m k = Some a.
Proof.
  induction m as [|[x b] m IH]; simpl; intros Hnd H; [destruct H|]. inversion Hnd; subst.
  destruct H as [H|H].
  - inversion H; subst. rewrite str_eqb_refl. reflexivity.
  - destruct (str_eqb_spec x k) as [->|Hne]; [|auto].
    exfalso. apply H2. apply (in_map fst) in H. exact H.
Qed.

Lemma sget_None {A} (m : list (str * A)) k : sget m k = None <-> ~ In k (map fst m).
Proof.
  induction m as [|[x b] m IH]; simpl; [tauto|].
  destruct (str_eqb_spec x k) as [->|Hne].
  - split; [discriminate | intros H; exfalso; apply H; left; reflexivity].
  - rewrite IH. tauto.
Qed.

Lemma resolve_exact demangle indices start i :
  NoDup (map fst indices) -> In (start, i) indices -> resolve_start demangle indices start = Some i.
Proof. intros Hnd Hin. unfold resolve_start. rewrite (sget_unique _ _ _ Hnd Hin). reflexivity. Qed.

Lemma resolve_other demangle indices start i :
  NoDup (map fst indices) -> ~ In start (map fst indices) ->
  (resolve_start demangle indices start = Some i <->
   exists key, In (key, i) indices /\
     (exists r, demangle key = start ++ lit "::h" ++ r) /\
     (forall key' j, In (key', j) indices -> (exists r, demangle key' = start ++ lit "::h" ++ r) -> key' = key)).
Proof.
  intros Hnd Hno. unfold resolve_start. apply sget_None in Hno. rewrite Hno.
  assert (Hhit : forall kv, In kv (filter (fun kv => starts_with (start ++ lit "::h") (demangle (fst kv))) indices) <->
            In kv indices /\ exists r, demangle (fst kv) = start ++ lit "::h" ++ r).
  { intros kv. rewrite filter_In, starts_with_app. setoid_rewrite <- app_assoc. reflexivity. }
  assert (Hndh : NoDup (map fst (filter (fun kv => starts_with (start ++ lit "::h") (demangle (fst kv))) indices))).
  { clear - Hnd. induction indices as [|kv l IH]; simpl; [constructor|]. simpl in Hnd. inversion Hnd; subst.
    destruct (starts_with _ _); simpl; auto. constructor; auto.
    intros Hc. apply H1. apply in_map_iff in Hc as [x [Hx1 Hx2]]. apply filter_In in Hx2 as [Hx2 _].
    rewrite <- Hx1. apply in_map; exact Hx2. }
  cbv zeta.
  destruct (filter (fun kv => starts_with (start ++ lit "::h") (demangle (fst kv))) indices) as [|[k0 i0] [|[k1 i1] rest]].
  - split; [discriminate|]. intros [key [H1 [H2 _]]]. exfalso. apply (proj2 (Hhit (key, i))). auto.
  - split.
    + intros H; inversion H; subst i0. exists k0.
      destruct (proj1 (Hhit (k0, i)) (or_introl eq_refl)) as [H1 H2]. split; [exact H1|]. split; [exact H2|].
      intros key' j Hin Hr. destruct (proj2 (Hhit (key', j)) (conj Hin Hr)) as [He|[]]. inversion He; reflexivity.
    + intros [key [H1 [H2 _]]]. destruct (proj2 (Hhit (key, i)) (conj H1 H2)) as [He|[]]. inversion He; reflexivity.
  - split; [discriminate|]. intros [key [_ [_ H3]]]. exfalso.
    destruct (proj1 (Hhit (k0, i0)) (or_introl eq_refl)) as [A1 A2].
    destruct (proj1 (Hhit (k1, i1)) (or_intror (or_introl eq_refl))) as [B1 B2].
    pose proof (H3 _ _ A1 A2). pose proof (H3 _ _ B1 B2). simpl in *. inversion Hndh; subst. apply H4. left; reflexivity.
Qed.

Lemma resolve_hash demangle indices start :
  NoDup (map fst indices) -> ~ In start (map fst indices) ->
  (forall key i r, In (key, i) indices -> demangle key = start ++ lit "::h" ++ r -> hashed_form start (demangle key)) ->
  forall i,
  (resolve_start demangle indices start = Some i <->
   exists key, In (key, i) indices /\ hashed_form start (demangle key) /\
     (forall key' j, In (key', j) indices -> hashed_form start (demangle key') -> key' = key)).
Proof.
  intros Hnd Hno Hh i. rewrite (resolve_other demangle indices start i Hnd Hno).
  assert (Hiff : forall key j, In (key, j) indices ->
     ((exists r, demangle key = start ++ lit "::h" ++ r) <-> hashed_form start (demangle key))).
  { intros key j Hin. split.
    - intros [r Hr]. eapply Hh; eauto.
    - intros [h [Hd [d [-> _]]]]. exists d. exact Hd. }
  split; intros [key [H1 [H2 H3]]]; exists key; (split; [exact H1|]);
    (split; [apply (Hiff key i H1); exact H2|]); intros key' j Hin Hr; apply (H3 key' j Hin), (Hiff key' j Hin), Hr.
Qed.

Lemma filter_unresolved demangle indices s g :
  resolve_start demangle indices s = None -> filter_start demangle indices (Some s) g = Ret g.
Proof. intros H. simpl. rewrite H. reflexivity. Qed.

Lemma filter_restricts demangle indices s i g :
  wf_graph g -> resolve_start demangle indices s = Some i -> i < node_count g ->
  exists g2 ids, filter_start demangle indices (Some s) g = Ret g2 /\ restricted g i g2 ids.
Proof.
  intros Hwf H Hi. simpl. rewrite H. apply reachable_subgraph_correct; auto.
Qed.

Lemma filter_keeps demangle indices s i g g' cs :
  wf_graph g -> usages_u64 g -> resolve_start demangle indices s = Some i -> i < node_count g ->
  max_stack true g = Ret (g', cs) ->
  exists g2 ids g2' cs2,
    filter_start demangle indices (Some s) g = Ret g2 /\ restricted g i g2 ids /\
    max_stack true g2 = Ret (g2', cs2) /\
    forall k v m, nth_error ids k = Some v -> (reported g2' k m <-> reported g' v m).
Proof.
  intros Hwf Hsum H Hi Hrun. destruct (filter_restricts demangle indices s i g Hwf H Hi) as [g2 [ids [H1 H2]]].
  destruct (max_stack_correct g2 (rs_wf _ _ _ _ H2)) as [g2' [cs2 [H3 _]]].
  exists g2, ids, g2', cs2. split; [exact H1|]. split; [exact H2|]. split; [exact H3|].
  eapply filter_keeps_maxima; eauto.
Qed.

Lemma prefix_not_hash :
  exists demangle indices start i key,
    resolve_start demangle indices start = Some i /\ In (key, i) indices /\
    ~ hashed_form start (demangle key) /\ hashed_form (lit "foo::helper") (demangle key) /\ start = lit "foo".
Proof.
  set (d := lit "foo::helper::h0123456789abcdef").
  exists (fun _ => d), [(lit "_ZN3foo6helper17h0123456789abcdefE", 0)], (lit "foo"), 0, (lit "_ZN3foo6helper17h0123456789abcdefE").
  split; [reflexivity|]. split; [left; reflexivity|]. split; [|split; [|reflexivity]].
  - intros [h [Hd [x [-> [Hl Hx]]]]]. unfold d in Hd.
    apply (f_equal (@length _)) in Hd. simpl in Hd. rewrite Hl in Hd. discriminate.
  - exists (lit "::h0123456789abcdef"). split; [reflexivity|]. exists (lit "0123456789abcdef"). repeat split; reflexivity.
Qed.
