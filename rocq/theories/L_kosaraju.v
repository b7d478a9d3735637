(** Correctness of [DfsPostOrder] and [kosaraju_scc]. *)
From Verif Require Import M_base M_graph S_graph L_base L_trav.

Section Post.
Variable nb : nat -> list nat.
Variable n : nat.
Hypothesis nb_lt : forall u v, u < n -> In v (nb u) -> v < n.
Local Notation E := (E nb).
Local Notation conn u v := (star E u v /\ star E v u).

Lemma post_run_fuel fuel stack disc fin :
  (forall x, In x stack -> x < n) ->
  length stack + pend n (fun v => 1 + length (nb v)) disc < fuel ->
  exists r, post_run nb fuel stack disc fin = Some r.
Proof.
  revert stack disc fin; induction fuel as [|fuel IH]; intros stack disc fin Hlt Hf; [lia|].
  simpl. destruct stack as [|v st]; [eexists; reflexivity|].
  assert (Hst : forall x, In x st -> x < n) by (intros x Hx; apply Hlt; right; exact Hx).
  destruct (mem_spec v disc) as [Hm|Hm].
  - destruct (mem v fin); (apply IH; [exact Hst | cbn [length] in Hf; lia]).
  - assert (v < n) by (apply Hlt; left; reflexivity).
    apply IH.
    + intros x Hx. apply push_In in Hx as [[Hx _]|Hx]; [eapply nb_lt; eauto | apply Hlt; exact Hx].
    + rewrite (pend_visit n (fun v => 1 + length (nb v)) v disc) in Hf by auto.
      pose proof (push_length (nb v) (v :: disc) (v :: st)). cbn [length] in *. lia.
Qed.

(** [K fin]: once a whole component is finished, so is everything it reaches. *)
Definition K (fin : list nat) : Prop :=
  forall u, (forall x, conn u x -> In x fin) -> forall w, star E u w -> In w fin.

Fixpoint OrdK (fin : list nat) : Prop :=
  K fin /\ match fin with [] => True | _ :: f => OrdK f end.

Record Inv (stack disc fin : list nat) : Prop := {
  inv_sub : forall x, In x fin -> In x disc;
  inv_nd : NoDup fin;
  inv_lt : forall x, In x disc -> x < n;
  inv_gray : forall x, In x disc -> ~ In x fin -> In x stack;
  inv_chain : forall s1 y s2, stack = s1 ++ y :: s2 -> In y disc -> ~ In y fin -> ~ In y s1 ->
              forall x, In x s1 -> star E y x;
  inv_black : forall v w, In v fin -> E v w -> In w disc;
  inv_succ : forall s1 y s2 w, stack = s1 ++ y :: s2 -> In y disc -> ~ In y fin -> ~ In y s1 ->
              E y w -> In w disc \/ In w s1;
  inv_J : forall v w, In v fin -> star E v w -> ~ In w fin ->
              exists y, In y disc /\ ~ In y fin /\ conn y v;
  inv_K : OrdK fin
}.

Lemma in_split_first (x : nat) l : In x l -> exists l1 l2, l = l1 ++ x :: l2 /\ ~ In x l1.
Proof.
  induction l as [|y l IH]; intros H; [contradiction|].
  destruct (Nat.eq_dec y x) as [->|Hne].
  - exists [], l. split; [reflexivity | intros []].
  - destruct H as [H|H]; [congruence|]. destruct (IH H) as [l1 [l2 [-> Hn]]].
    exists (y :: l1), l2. split; [reflexivity|]. intros [Hc|Hc]; auto.
Qed.

(** A split of [a ++ b] with the element outside [a] is a split of [b]. *)
Lemma split_app (a b s1 s2 : list nat) y :
  a ++ b = s1 ++ y :: s2 -> ~ In y a -> exists t, s1 = a ++ t /\ b = t ++ y :: s2.
Proof.
  revert s1; induction a as [|x a IH]; intros s1 H Hn.
  - exists s1; split; [reflexivity | exact H].
  - destruct s1 as [|z s1]; simpl in H.
    + inversion H; subst. exfalso; apply Hn; left; reflexivity.
    + inversion H; subst. destruct (IH s1 H2) as [t [-> Ht]].
      * intros Hc; apply Hn; right; exact Hc.
      * exists t; split; [reflexivity | exact Ht].
Qed.

Lemma In_dec_nat x (l : list nat) : {In x l} + {~ In x l}.
Proof. apply in_dec, Nat.eq_dec. Qed.

Lemma Inv_discover v st disc fin :
  Inv (v :: st) disc fin -> v < n -> ~ In v disc ->
  Inv (push_undiscovered (nb v) (v :: disc) (v :: st)) (v :: disc) fin.
Proof.
  intros [Isub Ind Ilt Igray Ichain Iblack Isucc IJ IK] Hv Hm.
  assert (Hvf : ~ In v fin) by (intros Hc; apply Hm, Isub, Hc).
  assert (Hpush : forall x, In x (rev (filter (fun s => negb (mem s (v :: disc))) (nb v))) <->
                            E v x /\ ~ In x (v :: disc)).
  { intros x. rewrite <- in_rev, filter_In, negb_true_iff, mem_false. reflexivity. }
  assert (Hsplit : forall s1 y s2, push_undiscovered (nb v) (v :: disc) (v :: st) = s1 ++ y :: s2 ->
            In y (v :: disc) ->
            exists t, s1 = rev (filter (fun s => negb (mem s (v :: disc))) (nb v)) ++ t /\
                      v :: st = t ++ y :: s2).
  { intros s1 y s2 H Hy. unfold push_undiscovered in H. apply split_app in H; auto.
    intros Hc; apply Hpush in Hc as [_ Hc]; auto. }
  split; auto.
  - intros x Hx; right; apply Isub, Hx.
  - intros x [<-|Hx]; auto.
  - intros x Hx Hf. apply push_In. right. destruct Hx as [<-|Hx]; [left; reflexivity | apply Igray; auto].
  - intros s1 y s2 Hs Hy Hyf Hy1 x Hx.
    destruct (Hsplit _ _ _ Hs Hy) as [t [-> Ht]].
    destruct (Nat.eq_dec y v) as [->|Hne].
    + assert (t = []) as ->.
      { destruct t as [|a t]; [reflexivity|]. inversion Ht; subst. exfalso. apply Hy1.
        apply in_or_app; right; left; reflexivity. }
      rewrite app_nil_r in Hx. apply Hpush in Hx as [Hx _]. apply star_one; exact Hx.
    + destruct Hy as [Hy|Hy]; [congruence|].
      assert (Hyt : ~ In y t) by (intros Hc; apply Hy1, in_or_app; right; exact Hc).
      assert (Hvt : In v t).
      { destruct t as [|a t]; simpl in Ht; inversion Ht; subst; [congruence | left; reflexivity]. }
      assert (Hyv : star E y v) by (eapply Ichain; eauto).
      apply in_app_or in Hx as [Hx|Hx].
      * apply Hpush in Hx as [Hx _]. eapply star_snoc; eauto.
      * eapply Ichain; eauto.
  - intros a w Ha Hw. right. eapply Iblack; eauto.
  - intros s1 y s2 w Hs Hy Hyf Hy1 Hw.
    destruct (Hsplit _ _ _ Hs Hy) as [t [-> Ht]].
    destruct (In_dec_nat w (v :: disc)) as [Hwd|Hwd]; [left; exact Hwd|].
    right. destruct (Nat.eq_dec y v) as [->|Hne].
    + apply in_or_app; left. apply Hpush. split; auto.
    + destruct Hy as [Hy|Hy]; [congruence|].
      assert (Hyt : ~ In y t) by (intros Hc; apply Hy1, in_or_app; right; exact Hc).
      destruct (Isucc _ _ _ w Ht Hy Hyf Hyt Hw) as [Hc|Hc].
      * exfalso; apply Hwd; right; exact Hc.
      * apply in_or_app; right; exact Hc.
  - intros a w Ha Hr Hw. destruct (IJ a w Ha Hr Hw) as [y [H1 [H2 H3]]].
    exists y; split; [right; exact H1 | split; auto].
Qed.

Lemma Inv_stale v st disc fin : Inv (v :: st) disc fin -> In v fin -> Inv st disc fin.
Proof.
  intros [Isub Ind Ilt Igray Ichain Iblack Isucc IJ IK] Hv.
  split; auto.
  - intros x Hx Hf. destruct (Igray x Hx Hf) as [<-|H]; [contradiction | exact H].
  - intros s1 y s2 Hs Hy Hyf Hy1 x Hx. eapply (Ichain (v :: s1)); eauto.
    + simpl; rewrite Hs; reflexivity.
    + intros [Hc|Hc]; [subst; contradiction | contradiction].
    + right; exact Hx.
  - intros s1 y s2 w Hs Hy Hyf Hy1 Hw.
    destruct (Isucc (v :: s1) y s2 w) as [H|[H|H]]; auto.
    + simpl; rewrite Hs; reflexivity.
    + intros [Hc|Hc]; [subst; contradiction | contradiction].
    + subst; left; apply Isub; exact Hv.
Qed.

Lemma Inv_finish v st disc fin :
  Inv (v :: st) disc fin -> In v disc -> ~ In v fin -> Inv st disc (v :: fin).
Proof.
  intros [Isub Ind Ilt Igray Ichain Iblack Isucc IJ IK] Hd Hv.
  assert (Hsv : forall w, E v w -> In w disc).
  { intros w Hw. destruct (Isucc [] v st w) as [H|[]]; auto. }
  assert (Hup : forall y, In y disc -> ~ In y (v :: fin) -> In y st /\ star E y v).
  { intros y Hy Hyf.
    assert (Hyv : y <> v) by (intros ->; apply Hyf; left; reflexivity).
    assert (Hyf' : ~ In y fin) by (intros Hc; apply Hyf; right; exact Hc).
    pose proof (Igray y Hy Hyf') as Hys.
    destruct (in_split_first y (v :: st) Hys) as [s1 [s2 [Hs Hn]]].
    destruct s1 as [|a s1]; simpl in Hs; inversion Hs; subst; [congruence|].
    split; [apply in_or_app; right; left; reflexivity|].
    eapply (Ichain (a :: s1)); eauto. left; reflexivity. }
  (* a path from a finished node to an unfinished one passes through a gray node *)
  assert (Hgray : forall a w, In a (v :: fin) -> star E a w -> ~ In w (v :: fin) ->
            exists y, In y disc /\ ~ In y (v :: fin) /\ star E a y).
  { intros a w Ha Hr Hw.
    destruct (star_exit E (fun x => In x (v :: fin)) (fun x => In_dec_nat x (v :: fin)) a w Hr Ha Hw)
      as [x [y [H1 [H2 [H3 [H4 H5]]]]]].
    exists y. split; [|split; [exact H4 | eapply star_snoc; eauto]].
    destruct H2 as [<-|H2]; [apply Hsv; exact H3 | eapply Iblack; eauto]. }
  assert (HJ : forall a w, In a (v :: fin) -> star E a w -> ~ In w (v :: fin) ->
            exists y, In y disc /\ ~ In y (v :: fin) /\ conn y a).
  { (* for v itself *)
    assert (HJv : forall w, star E v w -> ~ In w (v :: fin) ->
              exists y, In y disc /\ ~ In y (v :: fin) /\ conn y v).
    { intros w Hr Hw.
      destruct (Hgray v w (or_introl eq_refl) Hr Hw) as [y [H1 [H2 H3]]].
      exists y. split; [exact H1 | split; [exact H2 | split; [|exact H3]]].
      apply Hup; auto. }
    intros a w [<-|Ha] Hr Hw.
    - eapply HJv; eauto.
    - assert (Hw' : ~ In w fin) by (intros Hc; apply Hw; right; exact Hc).
      destruct (IJ a w Ha Hr Hw') as [y [H1 [H2 [H3 H4]]]].
      destruct (Nat.eq_dec y v) as [->|Hne].
      + destruct (HJv w) as [z [Hz1 [Hz2 [Hz3 Hz4]]]]; auto.
        * eapply star_trans; eauto.
        * exists z. split; [exact Hz1 | split; [exact Hz2 |]].
          split; eapply star_trans; eauto.
      + exists y. split; [exact H1|]. split; [intros [Hc|Hc]; [congruence | contradiction]|]. split; auto. }
  split; auto.
  - intros x [<-|Hx]; auto.
  - constructor; auto.
  - intros x Hx Hf. apply Hup; auto.
  - intros s1 y s2 Hs Hy Hyf Hy1 x Hx. eapply (Ichain (v :: s1)); eauto.
    + simpl; rewrite Hs; reflexivity.
    + intros Hc; apply Hyf; right; exact Hc.
    + intros [Hc|Hc]; [apply Hyf; left; exact Hc | contradiction].
    + right; exact Hx.
  - intros a w [<-|Ha] Hw; [apply Hsv; exact Hw | eapply Iblack; eauto].
  - intros s1 y s2 w Hs Hy Hyf Hy1 Hw.
    destruct (Isucc (v :: s1) y s2 w) as [H|[H|H]]; auto.
    + simpl; rewrite Hs; reflexivity.
    + intros Hc; apply Hyf; right; exact Hc.
    + intros [Hc|Hc]; [apply Hyf; left; exact Hc | contradiction].
    + subst; left; exact Hd.
  - split; [|exact IK].
    intros u Hu w Hr.
    destruct (In_dec_nat w (v :: fin)) as [H|H]; [exact H|]. exfalso.
    assert (Huf : In u (v :: fin)) by (apply Hu; split; constructor).
    destruct (HJ u w Huf Hr H) as [y [H1 [H2 [H3 H4]]]].
    apply H2, Hu. split; auto.
Qed.

Lemma post_run_inv fuel stack disc fin disc' fin' :
  (forall x, In x stack -> x < n) ->
  Inv stack disc fin -> post_run nb fuel stack disc fin = Some (disc', fin') ->
  Inv [] disc' fin' /\ (forall x, In x disc -> In x disc') /\ (forall x, In x stack -> In x disc').
Proof.
  revert stack disc fin; induction fuel as [|fuel IH]; intros stack disc fin Hlt HI Hrun; [discriminate|].
  simpl in Hrun. destruct stack as [|v st].
  - inversion Hrun; subst. split; [exact HI | split; [auto | intros x []]].
  - assert (Hst : forall x, In x st -> x < n) by (intros x Hx; apply Hlt; right; exact Hx).
    destruct (mem_spec v disc) as [Hm|Hm].
    + destruct (mem_spec v fin) as [Hf|Hf].
      * destruct (IH st disc fin Hst (Inv_stale _ _ _ _ HI Hf) Hrun) as [H1 [H2 H3]].
        split; [exact H1 | split; [exact H2 | intros x [<-|Hx]; auto]].
      * destruct (IH st disc (v :: fin) Hst (Inv_finish _ _ _ _ HI Hm Hf) Hrun) as [H1 [H2 H3]].
        split; [exact H1 | split; [exact H2 | intros x [<-|Hx]; auto]].
    + assert (Hv : v < n) by (apply Hlt; left; reflexivity).
      destruct (IH (push_undiscovered (nb v) (v :: disc) (v :: st)) (v :: disc) fin) as [H1 [H2 H3]]; auto.
      * intros x Hx. apply push_In in Hx as [[Hx _]|Hx]; [eapply nb_lt; eauto | apply Hlt; exact Hx].
      * apply Inv_discover; auto.
      * split; [exact H1|]. split.
        -- intros x Hx; apply H2; right; exact Hx.
        -- intros x Hx; apply H3. apply push_In; right; exact Hx.
Qed.

Lemma Inv_start i disc fin : Inv [] disc fin -> ~ In i disc -> Inv [i] disc fin.
Proof.
  intros [Isub Ind Ilt Igray Ichain Iblack Isucc IJ IK] Hi.
  assert (Hno : forall y, In y disc -> ~ In y fin -> False) by (intros y H1 H2; destruct (Igray y H1 H2)).
  split; auto; try (intros; exfalso; eapply Hno; eassumption).
Qed.

Lemma phase1_spec fuel ids disc fin :
  (forall x, In x ids -> x < n) ->
  1 + pend n (fun v => 1 + length (nb v)) [] < fuel ->
  Inv [] disc fin ->
  exists fin', kosaraju_phase1 nb fuel ids disc fin = Some fin' /\
    exists disc', Inv [] disc' fin' /\ (forall x, In x disc -> In x disc') /\ (forall x, In x ids -> In x disc').
Proof.
  revert disc fin; induction ids as [|i ids IH]; intros disc fin Hlt Hf HI; simpl.
  - exists fin; split; [reflexivity|]. exists disc; split; [exact HI | split; [auto | intros x []]].
  - assert (Hids : forall x, In x ids -> x < n) by (intros x Hx; apply Hlt; right; exact Hx).
    destruct (mem_spec i disc) as [Hm|Hm].
    + destruct (IH disc fin Hids Hf HI) as [fin' [H1 [disc' [H2 [H3 H4]]]]].
      exists fin'; split; [exact H1|]. exists disc'. split; [exact H2 | split; [exact H3|]].
      intros x [<-|Hx]; auto.
    + assert (Hi : forall x, In x [i] -> x < n).
      { intros x [<-|[]]. apply Hlt; left; reflexivity. }
      destruct (post_run_fuel fuel [i] disc fin Hi) as [[disc1 fin1] Hr].
      { cbn [length]. assert (pend n (fun v => 1 + length (nb v)) disc <= pend n (fun v => 1 + length (nb v)) []).
        { rewrite pend_nil. apply sum_filter_le. }
        lia. }
      rewrite Hr.
      destruct (post_run_inv _ _ _ _ _ _ Hi (Inv_start i disc fin HI Hm) Hr) as [HI1 [Hd1 Hs1]].
      destruct (IH disc1 fin1 Hids Hf HI1) as [fin' [H1 [disc' [H2 [H3 H4]]]]].
      exists fin'; split; [exact H1|]. exists disc'. split; [exact H2 | split].
      * intros x Hx; apply H3, Hd1, Hx.
      * intros x [<-|Hx]; [apply H3, Hs1; left; reflexivity | apply H4, Hx].
Qed.

Lemma phase1_correct fuel :
  1 + pend n (fun v => 1 + length (nb v)) [] < fuel ->
  exists fin, kosaraju_phase1 nb fuel (seq 0 n) [] [] = Some fin /\
    NoDup fin /\ (forall x, In x fin <-> x < n) /\ OrdK fin.
Proof.
  intros Hf.
  destruct (phase1_spec fuel (seq 0 n) [] []) as [fin [H1 [disc [H2 [_ H4]]]]]; auto.
  - intros x Hx. apply in_seq in Hx. lia.
  - split; try (intros; simpl in *; tauto).
    + constructor.
    + split; [|exact I]. intros u Hu w _. exfalso. apply (Hu u). split; constructor.
  - exists fin. split; [exact H1|]. destruct H2. split; [auto|]. split; [|auto].
    intros x; split; intros Hx; [auto|].
    destruct (In_dec_nat x fin) as [H|H]; [exact H|]. exfalso.
    apply (inv_gray0 x); [apply H4, in_seq; lia | exact H].
Qed.
End Post.

(** ** The SCCs *)
Section Kosaraju.
Context {A : Type}.
Variable g : graph A.
Hypothesis Hwf : wf_graph g.

(** What [kosaraju_scc] promises: the components of the mutual-reachability relation, callees first. *)
Record scc_list (ls : list (list nat)) : Prop := {
  sl_nd : NoDup (concat ls);
  sl_all : forall x, In x (concat ls) <-> x < node_count g;
  sl_ne : forall c, In c ls -> c <> [];
  sl_class : forall c x y, In c ls -> In x c -> (In y c <-> mutual g x y);
  sl_order : forall l1 c l2 x y, ls = l1 ++ c :: l2 -> In x c -> reach g x y ->
             In y c \/ In y (concat l1)
}.

Lemma star_lt u v : reach g u v -> u < node_count g -> v < node_count g.
Proof.
  induction 1 as [v|u v w Huv Hvw IH]; intros; auto. apply IH. apply Hwf in Huv. tauto.
Qed.

Lemma star_lt_rev u v : reach g u v -> v < node_count g -> u < node_count g.
Proof.
  induction 1 as [v|u v w Huv Hvw IH]; intros; auto. apply Hwf in Huv. tauto.
Qed.

Lemma starR u v : star (E (in_nbrs g)) u v <-> reach g v u.
Proof.
  split; intros H.
  - apply star_rev in H. eapply star_mono; [|exact H]. intros a b Hab. simpl in Hab.
    apply in_nbrs_In in Hab. exact Hab.
  - apply star_rev in H. eapply star_mono; [|exact H]. intros a b Hab. simpl in Hab.
    apply in_nbrs_In. exact Hab.
Qed.

Lemma starF u v : star (E (out_nbrs g)) u v <-> reach g u v.
Proof.
  split; intros H; (eapply star_mono; [|exact H]); intros a b Hab; apply out_nbrs_In; exact Hab.
Qed.

Lemma KR fin : K (in_nbrs g) fin ->
  forall u, (forall x, mutual g u x -> In x fin) -> forall w, reach g w u -> In w fin.
Proof.
  intros HK u Hu w Hw. apply (HK u).
  - intros x [H1 H2]. apply starR in H1, H2. apply Hu. split; auto.
  - apply starR. exact Hw.
Qed.

Lemma reach_dec u v : {reach g u v} + {~ reach g u v}.
Proof.
  destruct (lt_dec u (node_count g)) as [Hu|Hu].
  - assert (Hnb : forall u v, u < node_count g -> In v (out_nbrs g u) -> v < node_count g).
    { intros a b _ Hb. apply out_nbrs_In in Hb. apply Hwf in Hb. tauto. }
    destruct (dfs_run (out_nbrs g) (trav_fuel g) [u] [] []) as [[out disc']|] eqn:Hrun.
    + destruct (dfs_run_from (out_nbrs g) (trav_fuel g) u [] out disc') as [_ [_ [_ [H4 _]]]]; auto.
      destruct (In_dec_nat v out) as [H|H].
      * left. apply H4 in H. apply starF. tauto.
      * right. intros Hr. apply H, H4. split; [apply starF; exact Hr | intros []].
    + exfalso. destruct (dfs_run_fuel (out_nbrs g) (node_count g) Hnb (trav_fuel g) [u] [] []) as [r Hr].
      * intros x [<-|[]]; exact Hu.
      * pose proof (sum_filter_le (fun v => length (out_nbrs g v))
                 (fun v => negb (mem v [])) (seq 0 (node_count g))) as H1.
        pose proof (out_degree_sum g (node_count g)) as H2. unfold pend, trav_fuel.
        cbn [length]. lia.
      * congruence.
  - destruct (Nat.eq_dec u v) as [->|Hne]; [left; constructor|].
    right. intros Hr. inversion Hr; subst; [congruence|]. apply Hwf in H. lia.
Qed.

Lemma NoDup_app_intro (a b : list nat) :
  NoDup a -> NoDup b -> (forall x, In x a -> In x b -> False) -> NoDup (a ++ b).
Proof.
  induction a as [|x a IH]; intros Ha Hb H; simpl; [exact Hb|].
  inversion Ha; subst. constructor.
  - intros Hc. apply in_app_or in Hc as [Hc|Hc]; [contradiction|]. eapply H; [left; reflexivity | exact Hc].
  - apply IH; auto. intros y Hy Hy'. eapply H; [right; exact Hy | exact Hy'].
Qed.

Lemma NoDup_app_l (a b : list nat) : NoDup (a ++ b) -> NoDup a.
Proof.
  induction a as [|x a IH]; intros H; [constructor|]. simpl in H. inversion H; subst.
  constructor; auto. intros Hc; apply H2, in_or_app; left; exact Hc.
Qed.

Lemma exists_last_dec {B} (l : list B) : l = [] \/ exists l' y, l = l' ++ [y].
Proof.
  destruct l as [|x l]; [left; reflexivity|]. right.
  destruct (@exists_last _ (x :: l)) as [l' [y Hy]]; [discriminate|]. exists l', y; exact Hy.
Qed.

Lemma app_snoc_split {B} (a l1 l2 : list B) x c :
  a ++ [x] = l1 ++ c :: l2 ->
  (exists l2', l2 = l2' ++ [x] /\ a = l1 ++ c :: l2') \/ (l2 = [] /\ a = l1 /\ x = c).
Proof.
  intros H. destruct (exists_last_dec l2) as [->|[l2' [y ->]]].
  - right. apply app_inj_tail in H as [-> ->]. auto.
  - left. exists l2'.
    rewrite app_comm_cons, app_assoc in H. apply app_inj_tail in H as [-> ->]. auto.
Qed.

(** State of the second phase: [done] nodes are those already emitted. *)
Lemma phase2_spec fuel order disc sccs :
  node_count g + length (gedges g) + 1 < fuel ->
  NoDup order -> OrdK (in_nbrs g) order ->
  (forall x, In x order -> x < node_count g) ->
  (forall x, x < node_count g -> In x order \/ In x disc) ->
  (forall x, In x disc <-> In x (concat (rev sccs))) ->
  NoDup (concat (rev sccs)) -> NoDup disc ->
  (forall x, In x disc -> x < node_count g) ->
  (forall d s, In d disc -> calls g d s -> In s disc) ->
  (forall d s, In d disc -> mutual g d s -> In s disc) ->
  (forall c, In c sccs -> c <> []) ->
  (forall c x y, In c sccs -> In x c -> (In y c <-> mutual g x y)) ->
  (forall l1 c l2 x y, rev sccs = l1 ++ c :: l2 -> In x c -> reach g x y -> In y c \/ In y (concat l1)) ->
  exists ls, kosaraju_phase2 (out_nbrs g) fuel order disc sccs = Some ls /\ scc_list ls.
Proof.
  intros Hfuel.
  revert disc sccs; induction order as [|i rest IH];
    intros disc sccs Hnd HK Hlt Hall Hdisc Hndc Hndd Hdlt Hcl Hclm Hne Hclass Hord; simpl.
  - exists (rev sccs). split; [reflexivity|]. split; auto.
    + intros x. rewrite <- Hdisc. split; [auto|]. intros Hx. destruct (Hall x Hx) as [[]|H]; exact H.
    + intros c Hc. apply Hne. apply in_rev; exact Hc.
    + intros c x y Hc. apply Hclass. apply in_rev; exact Hc.
  - inversion Hnd as [|? ? Hi Hnd']; subst.
    destruct HK as [HK1 HK2].
    assert (Hin : i < node_count g) by (apply Hlt; left; reflexivity).
    destruct (mem_spec i disc) as [Hm|Hm].
    + apply IH; auto.
      * intros x Hx; apply Hlt; right; exact Hx.
      * intros x Hx. destruct (Hall x Hx) as [[<-|H]|H]; auto.
    + assert (Hnb : forall u v, u < node_count g -> In v (out_nbrs g u) -> v < node_count g).
      { intros u v _ Hv. apply out_nbrs_In in Hv. apply Hwf in Hv. tauto. }
      destruct (dfs_run_fuel (out_nbrs g) (node_count g) Hnb fuel [i] disc []) as [[scc disc'] Hrun].
      { intros x [<-|[]]; exact Hin. }
      { simpl. pose proof (sum_filter_le (fun v => length (out_nbrs g v))
                 (fun v => negb (mem v disc)) (seq 0 (node_count g))) as H1.
        pose proof (out_degree_sum g (node_count g)) as H2. unfold pend. lia. }
      rewrite Hrun.
      destruct (dfs_run_from (out_nbrs g) fuel i disc scc disc' Hm) as [H1 [H2 [[rs H3] [H4 H5]]]]; auto.
      { intros d s Hd Hs. apply (Hcl d s Hd). apply out_nbrs_In; exact Hs. }
      assert (Hreachcl : forall u v, reach g u v -> In u disc -> In v disc).
      { clear - Hcl. intros u v H; induction H; eauto. }
      (* the collected set is the component of i *)
      assert (Hscc : forall x, In x scc <-> mutual g i x).
      { intros x. rewrite H4. split.
        - intros [Hr Hx]. apply starF in Hr. split; [exact Hr|].
          destruct (reach_dec x i) as [Hxi|Hxi]; [exact Hxi|]. exfalso. apply Hi.
          apply (KR rest) with (u := x); [destruct rest; apply HK2 | | exact Hr].
          intros z [Hz1 Hz2].
          assert (Hzn : z < node_count g).
          { eapply star_lt; [exact Hz1|]. eapply star_lt; [exact Hr | exact Hin]. }
          destruct (Hall z Hzn) as [[<-|Hzr]|Hzd]; auto.
          + contradiction.
          + exfalso. apply Hx. eapply Hclm; [exact Hzd|]. split; auto.
        - intros [Hr1 Hr2]. split; [apply starF; exact Hr1|].
          intros Hx. apply Hm. eapply Hreachcl; eauto. }
      assert (Hdisc' : forall x, In x disc' <-> In x scc \/ In x disc).
      { intros x. rewrite H1, in_app_iff, <- in_rev. reflexivity. }
      assert (Hcat : concat (rev (scc :: sccs)) = concat (rev sccs) ++ scc).
      { simpl. rewrite concat_app. simpl. rewrite app_nil_r. reflexivity. }
      apply IH; auto.
      * intros x Hx; apply Hlt; right; exact Hx.
      * intros x Hx. destruct (Hall x Hx) as [[<-|H]|H]; auto.
        -- right. apply Hdisc'. left. apply Hscc. split; constructor.
        -- right. apply Hdisc'. right; exact H.
      * intros x. rewrite Hcat, in_app_iff, Hdisc', Hdisc. tauto.
      * rewrite Hcat. apply NoDup_app_intro; auto.
        -- specialize (H2 Hndd). rewrite H1 in H2. rewrite <- (rev_involutive scc).
           apply NoDup_rev. eapply NoDup_app_l; exact H2.
        -- intros x Hx Hx'. apply Hdisc in Hx. apply H4 in Hx'. tauto.
      * intros x Hx. apply Hdisc' in Hx as [Hx|Hx]; auto.
        apply Hscc in Hx as [Hx _]. eapply star_lt; eauto.
      * intros d s Hd Hs. apply (H5 d s Hd). apply out_nbrs_In; exact Hs.
      * intros d s Hd Hs. apply Hdisc' in Hd as [Hd|Hd]; apply Hdisc'.
        -- left. apply Hscc. apply Hscc in Hd. destruct Hd as [Ha Hb], Hs as [Hc He].
           split; eapply star_trans; eauto.
        -- right. eapply Hclm; eauto.
      * intros c [<-|Hc]; [rewrite H3; discriminate | auto].
      * intros c x y [<-|Hc] Hx; [|auto].
        rewrite Hscc. apply Hscc in Hx. destruct Hx as [Ha Hb].
        split; intros [Hc Hd]; split; eapply star_trans; eauto.
      * intros l1 c l2 x y Hs Hx Hr. simpl in Hs.
        destruct (app_snoc_split _ _ _ _ _ Hs) as [[l2' [-> Hs']] | [-> [<- <-]]].
        -- eapply Hord; eauto.
        -- apply Hscc in Hx as [Hx _].
           destruct (In_dec_nat y disc) as [Hy|Hy].
           ++ right. apply Hdisc; exact Hy.
           ++ left. apply H4. split; [|exact Hy]. apply starF. eapply star_trans; eauto.
Qed.

(** The result of [kosaraju_scc]; in particular it does not run out of fuel. *)
Theorem kosaraju_correct : exists ls, kosaraju_scc g = Some ls /\ scc_list ls.
Proof.
  unfold kosaraju_scc, node_ids.
  assert (Hnb : forall u v, u < node_count g -> In v (in_nbrs g u) -> v < node_count g).
  { intros u v _ Hv. apply in_nbrs_In in Hv. apply Hwf in Hv. tauto. }
  destruct (phase1_correct (in_nbrs g) (node_count g) Hnb (trav_fuel g)) as [fin [H1 [H2 [H3 H4]]]].
  { unfold trav_fuel, pend. simpl filter.
    assert (Hs : forall l, list_sum (map (fun v => 1 + length (in_nbrs g v)) l) =
                           length l + list_sum (map (fun v => length (in_nbrs g v)) l)).
    { induction l as [|x l IH]; simpl; [reflexivity|]. simpl in IH. rewrite IH. lia. }
    assert (Hf : filter (fun _ : nat => true) (seq 0 (node_count g)) = seq 0 (node_count g)).
    { induction (seq 0 (node_count g)) as [|x l IH]; simpl; congruence. }
    rewrite Hf, Hs, seq_length. pose proof (in_degree_sum g (node_count g)). lia. }
  rewrite H1. apply phase2_spec; auto; try (intros; simpl in *; tauto).
  - unfold trav_fuel; lia.
  - intros x Hx; apply H3; exact Hx.
  - intros x Hx; left; apply H3; exact Hx.
  - constructor.
  - constructor.
  - intros l1 c l2 x y Hs. destruct l1; discriminate.
Qed.
End Kosaraju.
