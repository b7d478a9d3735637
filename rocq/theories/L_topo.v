(** Correctness of [is_cyclic_directed] and [Topo]. *)
From Verif Require Import M_base M_graph S_graph L_base L_trav L_kosaraju.

(** [topo g l]: every callee of an entry occurs later in the list. *)
Fixpoint topo {A} (g : graph A) (l : list nat) : Prop :=
  match l with
  | [] => True
  | v :: l' => (forall w, calls g v w -> In w l') /\ topo g l'
  end.

Section Cyc.
Context {A : Type}.
Variable g : graph A.
Hypothesis Hwf : wf_graph g.
Local Notation n := (node_count g).

Record Pre (disc fin : list nat) : Prop := {
  pre_sub : incl fin disc;
  pre_nd : NoDup fin;
  pre_topo : topo g fin;
  pre_lt : forall x, In x disc -> x < n
}.

Lemma topo_closed l v w : topo g l -> In v l -> calls g v w -> In w l.
Proof.
  induction l as [|x l IH]; intros Ht Hv Hw; [destruct Hv|].
  destruct Ht as [H1 H2], Hv as [<-|Hv]; [right; apply H1; exact Hw|].
  right. eapply IH; eauto.
Qed.

Lemma topo_reach l v w : topo g l -> In v l -> reach g v w -> In w l.
Proof.
  intros Ht Hv Hr. induction Hr as [v|u v w Huv Hvw IH]; [exact Hv|].
  apply IH. eapply topo_closed; eauto.
Qed.

Lemma topo_not_recursive l v : topo g l -> NoDup l -> In v l -> ~ recursive g v.
Proof.
  induction l as [|x l IH]; intros Ht Hnd Hv [w [Hc Hr]]; [destruct Hv|].
  destruct Ht as [H1 H2]. inversion Hnd; subst.
  destruct Hv as [->|Hv].
  - apply H3. eapply topo_reach; [exact H2 | apply H1; exact Hc | exact Hr].
  - eapply IH; eauto. exists w; split; auto.
Qed.

Definition undisc (disc : list nat) : nat := pend n (fun _ => 1) disc.

Lemma undisc_visit u disc : u < n -> ~ In u disc -> undisc disc = S (undisc (u :: disc)).
Proof. intros H1 H2. unfold undisc. rewrite (pend_visit n (fun _ => 1) u disc H1 H2). reflexivity. Qed.

Lemma undisc_mono d1 d2 : incl d1 d2 -> undisc d2 <= undisc d1.
Proof.
  intros H. unfold undisc, pend. induction (seq 0 n) as [|x l IH]; simpl; [lia|].
  destruct (mem_spec x d1) as [H1|H1]; destruct (mem_spec x d2) as [H2|H2]; simpl; try lia.
  exfalso; apply H2, H, H1.
Qed.

Definition good (u : nat) (disc fin : list nat) (r : dfs_result) : Prop :=
  match r with
  | DFuel => False
  | DBack => exists v, recursive g v
  | DCont d f => Pre d f /\ incl disc d /\ incl fin f /\
                 (forall y, (In y d /\ ~ In y f) <-> (In y disc /\ ~ In y fin)) /\
                 (~ In u disc -> In u f)
  end.

Lemma visitor_spec fuel : forall u disc fin,
  u < n -> undisc disc < fuel -> Pre disc fin ->
  (forall y, In y disc -> ~ In y fin -> reach g y u) ->
  good u disc fin (dfs_visitor (out_nbrs g) fuel u disc fin).
Proof.
  induction fuel as [|fuel IH]; intros u disc fin Hu Hf HP Hg; [lia|].
  simpl. destruct (mem_spec u disc) as [Hm|Hm].
  { simpl. split; [exact HP|]. split; [apply incl_refl|]. split; [apply incl_refl|].
    split; [reflexivity | contradiction]. }
  (* the loop over the neighbours, in a state where u is gray *)
  assert (Hloop : forall vs d f,
    incl vs (out_nbrs g u) -> (forall w, In w (out_nbrs g u) -> In w vs \/ In w f) ->
    Pre d f -> incl (u :: disc) d -> incl fin f ->
    (forall y, (In y d /\ ~ In y f) <-> (In y (u :: disc) /\ ~ In y fin)) ->
    good u disc fin
      ((fix loop (vs disc fin : list nat) : dfs_result :=
         match vs with
         | [] => DCont disc (u :: fin)
         | v :: vs' =>
           if negb (mem v disc) then
             match dfs_visitor (out_nbrs g) fuel v disc fin with
             | DCont disc' fin' => loop vs' disc' fin'
             | r => r
             end
           else if negb (mem v fin) then DBack
           else loop vs' disc fin
         end) vs d f)).
  { assert (Huf0 : ~ In u fin) by (intros Hc; apply Hm, (pre_sub _ _ HP), Hc).
    induction vs as [|v vs IHvs]; intros d f Hvs Hdone HP' Hid Hif Hgray.
    - destruct HP' as [P1 P2 P3 P4].
      assert (Huf : ~ In u f) by (apply (Hgray u); split; [left; reflexivity | exact Huf0]).
      simpl. split; [|split; [|split; [|split]]].
      + split.
        * intros x [<-|Hx]; [apply Hid; left; reflexivity | apply P1; exact Hx].
        * constructor; auto.
        * split; [|exact P3]. intros w Hw. apply out_nbrs_In in Hw.
          destruct (Hdone w Hw) as [[]|H]; exact H.
        * exact P4.
      + intros x Hx; apply Hid; right; exact Hx.
      + intros x Hx; right; apply Hif; exact Hx.
      + intros y. specialize (Hgray y). simpl in *.
        destruct (Nat.eq_dec u y) as [->|Hne]; [tauto|]. tauto.
      + intros _; left; reflexivity.
    - assert (Hv : In v (out_nbrs g u)) by (apply Hvs; left; reflexivity).
      assert (Hcv : calls g u v) by (apply out_nbrs_In; exact Hv).
      assert (Hgv : forall y, In y d -> ~ In y f -> reach g y v).
      { intros y Hy Hyf. destruct (proj1 (Hgray y) (conj Hy Hyf)) as [[<-|H1] H2].
        - econstructor; [exact Hcv | constructor].
        - eapply star_snoc; [apply Hg; auto | exact Hcv]. }
      destruct (mem_spec v d) as [Hvd|Hvd]; simpl.
      + destruct (mem_spec v f) as [Hvf|Hvf]; simpl.
        * apply IHvs; auto.
          -- intros x Hx; apply Hvs; right; exact Hx.
          -- intros w Hw. destruct (Hdone w Hw) as [[<-|H]|H]; auto.
        * (* back edge *)
          exists u, v. split; [exact Hcv|].
          destruct (proj1 (Hgray v) (conj Hvd Hvf)) as [[<-|H1] H2]; [constructor | apply Hg; auto].
      + assert (Hfu : undisc d < fuel).
        { pose proof (undisc_mono _ _ Hid). rewrite (undisc_visit u disc) in Hf by auto. lia. }
        assert (Hvn : v < n) by (apply Hwf in Hcv; tauto).
        pose proof (IH v d f Hvn Hfu HP' Hgv) as HIH.
        destruct (dfs_visitor (out_nbrs g) fuel v d f) as [d1 f1| |]; simpl in HIH; auto.
        destruct HIH as [Q1 [Q2 [Q3 [Q4 Q5]]]].
        apply IHvs; auto.
        * intros x Hx; apply Hvs; right; exact Hx.
        * intros w Hw. destruct (Hdone w Hw) as [[<-|H]|H]; auto.
        * eapply incl_tran; eauto.
        * eapply incl_tran; eauto.
        * intros y. rewrite Q4. apply Hgray. }
  apply Hloop.
  - apply incl_refl.
  - intros w Hw; left; exact Hw.
  - destruct HP as [P1 P2 P3 P4]. split; auto.
    + intros x Hx; right; apply P1; exact Hx.
    + intros x [<-|Hx]; auto.
  - apply incl_refl.
  - apply incl_refl.
  - reflexivity.
Qed.

Lemma starts_spec fuel ids : forall disc fin,
  (forall x, In x ids -> x < n) -> n < fuel -> Pre disc fin ->
  (forall y, In y disc -> In y fin) ->
  match dfs_starts (out_nbrs g) fuel ids disc fin with
  | DFuel => False
  | DBack => exists v, recursive g v
  | DCont d f => Pre d f /\ incl disc d /\ (forall y, In y d -> In y f) /\ (forall x, In x ids -> In x f)
  end.
Proof.
  induction ids as [|i ids IH]; intros disc fin Hlt Hf HP Hno; simpl.
  - split; [exact HP|]. split; [apply incl_refl|]. split; [exact Hno | intros x []].
  - assert (Hi : i < n) by (apply Hlt; left; reflexivity).
    assert (Hfu : undisc disc < fuel).
    { assert (undisc disc <= n); [|lia]. unfold undisc.
      pose proof (sum_filter_le (fun _ => 1) (fun v => negb (mem v disc)) (seq 0 n)) as H.
      assert (Hs : forall l : list nat, list_sum (map (fun _ => 1) l) = length l).
      { induction l as [|x l IHl]; simpl; [reflexivity|]. rewrite IHl; reflexivity. }
      rewrite (Hs (seq 0 n)), seq_length in H. exact H. }
    pose proof (visitor_spec fuel i disc fin Hi Hfu HP) as Hv.
    destruct (dfs_visitor (out_nbrs g) fuel i disc fin) as [d f| |]; simpl in Hv.
    + destruct Hv as [Q1 [Q2 [Q3 [Q4 Q5]]]].
      { intros y Hy Hyf. exfalso. apply Hyf, Hno, Hy. }
      assert (Hno' : forall y, In y d -> In y f).
      { intros y Hy. destruct (In_dec_nat y f) as [H|H]; [exact H|]. exfalso.
        destruct (proj1 (Q4 y) (conj Hy H)) as [H1 H2]. apply H2, Hno, H1. }
      assert (Hif : In i f).
      { destruct (In_dec_nat i disc) as [H|H]; [apply Hno', Q2, H | apply Q5, H]. }
      assert (Hids : forall x, In x ids -> x < n) by (intros x Hx; apply Hlt; right; exact Hx).
      specialize (IH d f Hids Hf Q1 Hno').
      destruct (dfs_starts (out_nbrs g) fuel ids d f) as [d' f'| |]; auto.
      destruct IH as [R1 [R2 [R3 R4]]]. split; [exact R1|].
      split; [eapply incl_tran; eauto|]. split; [exact R3|].
      intros x [<-|Hx]; [|auto]. apply R3, R2, (pre_sub _ _ Q1), Hif.
    + apply Hv. intros y Hy Hyf. exfalso. apply Hyf, Hno, Hy.
    + apply Hv. intros y Hy Hyf. exfalso. apply Hyf, Hno, Hy.
Qed.

Theorem is_cyclic_correct :
  (is_cyclic_directed g = Some true /\ exists v, recursive g v) \/
  (is_cyclic_directed g = Some false /\ acyclic g /\
     exists l, topo g l /\ NoDup l /\ forall x, x < n -> In x l).
Proof.
  unfold is_cyclic_directed, node_ids.
  pose proof (starts_spec (trav_fuel g) (seq 0 n) [] []) as H.
  destruct (dfs_starts (out_nbrs g) (trav_fuel g) (seq 0 n) [] []) as [d f| |].
  - right. destruct H as [H1 [H2 [H3 H4]]].
    + intros x Hx; apply in_seq in Hx; lia.
    + unfold trav_fuel; lia.
    + split; try (intros x []); simpl; auto. constructor.
    + intros y [].
    + split; [reflexivity|].
      assert (Hall : forall x, x < n -> In x f) by (intros x Hx; apply H4, in_seq; lia).
      destruct H1 as [P1 P2 P3 P4].
      split; [|exists f; auto].
      intros v Hv. pose proof Hv as [w [Hc _]]. apply Hwf in Hc.
      apply (topo_not_recursive f v); auto. apply Hall; tauto.
  - left. split; [reflexivity|]. apply H.
    + intros x Hx; apply in_seq in Hx; lia.
    + unfold trav_fuel; lia.
    + split; try (intros x []); simpl; auto. constructor.
    + intros y [].
  - exfalso. apply H.
    + intros x Hx; apply in_seq in Hx; lia.
    + unfold trav_fuel; lia.
    + split; try (intros x []); simpl; auto. constructor.
    + intros y [].
Qed.

(** ** Topo over the reversed graph *)
Lemma topo_run_spec fuel : forall tovisit ordered,
  length tovisit + pend n (fun v => length (in_nbrs g v)) ordered < fuel ->
  (forall x, In x tovisit -> x < n) ->
  (forall x, In x ordered -> x < n) ->
  topo g ordered -> NoDup ordered ->
  (forall x w, In x tovisit -> calls g x w -> In w ordered) ->
  (forall y, y < n -> (forall w, calls g y w -> In w ordered) -> In y ordered \/ In y tovisit) ->
  exists order, topo_run (in_nbrs g) (out_nbrs g) fuel tovisit ordered = Some (rev order) /\
    topo g order /\ NoDup order /\ (forall x, In x order -> x < n) /\
    (forall y, y < n -> (forall w, calls g y w -> In w order) -> In y order).
Proof.
  induction fuel as [|fuel IH]; intros tv ord Hf Hlt Holt Ht Hnd Hready Hcompl; [lia|].
  cbn [topo_run]. destruct tv as [|x st].
  - exists ord. split; [reflexivity|]. repeat split; auto.
    intros y Hy Hw. destruct (Hcompl y Hy Hw) as [H|[]]; exact H.
  - assert (Hx : x < n) by (apply Hlt; left; reflexivity).
    destruct (mem_spec x ord) as [Hm|Hm].
    + apply IH; auto.
      * simpl in Hf; lia.
      * intros y Hy; apply Hlt; right; exact Hy.
      * intros y w Hy; apply Hready; right; exact Hy.
      * intros y Hy Hw. destruct (Hcompl y Hy Hw) as [H|[<-|H]]; auto.
    + cbv zeta. set (ready := filter (fun y => forallb (fun b => mem b (x :: ord)) (out_nbrs g y)) (in_nbrs g x)).
      assert (Hin : forall y, In y (rev ready ++ st) <->
                (calls g y x /\ forall w, calls g y w -> In w (x :: ord)) \/ In y st).
      { intros y. rewrite in_app_iff, <- in_rev. unfold ready. rewrite filter_In, forallb_forall, in_nbrs_In.
        assert (Heq : (forall z, In z (out_nbrs g y) -> mem z (x :: ord) = true) <->
                      (forall w, calls g y w -> In w (x :: ord))).
        { split; intros H w Hw.
          - apply mem_In, H, out_nbrs_In, Hw.
          - apply mem_In, H, out_nbrs_In, Hw. }
        rewrite Heq. reflexivity. }
      apply IH.
      * rewrite (pend_visit n (fun v => length (in_nbrs g v)) x ord Hx Hm) in Hf.
        rewrite app_length, rev_length.
        assert (length ready <= length (in_nbrs g x)).
        { unfold ready. apply filter_le. }
        cbn [length] in Hf. lia.
      * intros y Hy. apply Hin in Hy as [[Hy _]|Hy]; [apply Hwf in Hy; tauto | apply Hlt; right; exact Hy].
      * intros y [<-|Hy]; auto.
      * split; [|exact Ht]. intros w Hw. eapply Hready; [left; reflexivity | exact Hw].
      * constructor; auto.
      * intros y w Hy Hw. apply Hin in Hy as [[_ Hy]|Hy]; [apply Hy, Hw|].
        right. eapply Hready; [right; exact Hy | exact Hw].
      * intros y Hy Hw.
        destruct (In_dec_nat x (out_nbrs g y)) as [Hc|Hc].
        -- right. apply Hin. left. split; [apply out_nbrs_In; exact Hc | exact Hw].
        -- destruct (Hcompl y Hy) as [H|[H|H]].
           ++ intros w Hcw. destruct (Hw w Hcw) as [<-|H]; [|exact H].
              exfalso; apply Hc, out_nbrs_In, Hcw.
           ++ left; right; exact H.
           ++ left; left; exact H.
           ++ right. apply Hin. right; exact H.
Qed.

Theorem topo_reversed_correct :
  (exists l, topo g l /\ NoDup l /\ forall x, x < n -> In x l) ->
  exists order, topo_reversed g = Some (rev order) /\ topo g order /\ NoDup order /\
    (forall x, In x order <-> x < n).
Proof.
  intros [l [Hl [_ Hall]]]. unfold topo_reversed.
  set (tv := rev (filter (fun a => match out_nbrs g a with [] => true | _ => false end) (node_ids g))).
  assert (Htv : forall x, In x tv <-> x < n /\ forall w, ~ calls g x w).
  { intros x. unfold tv. rewrite <- in_rev, filter_In. unfold node_ids. rewrite in_seq.
    split.
    - intros [H1 H2]. split; [lia|]. intros w Hw. apply out_nbrs_In in Hw.
      destruct (out_nbrs g x); [destruct Hw | discriminate].
    - intros [H1 H2]. split; [lia|]. destruct (out_nbrs g x) as [|w ws] eqn:Ho; [reflexivity|].
      exfalso. apply (H2 w), out_nbrs_In. rewrite Ho; left; reflexivity. }
  destruct (topo_run_spec (trav_fuel g) tv []) as [order [H1 [H2 [H3 [H4 H5]]]]].
  - unfold trav_fuel. rewrite pend_nil. pose proof (in_degree_sum g n).
    assert (length tv <= n).
    { unfold tv. rewrite rev_length. unfold node_ids. rewrite <- (seq_length n 0) at 2.
      generalize (seq 0 n). clear. induction l as [|x xs IHx]; simpl; [lia|].
      destruct (out_nbrs g x); simpl; lia. }
    lia.
  - intros x Hx; apply Htv in Hx; tauto.
  - intros x [].
  - exact I.
  - constructor.
  - intros x w Hx Hw. apply Htv in Hx as [_ Hx]. exfalso; eapply Hx; eauto.
  - intros y Hy Hw. right. apply Htv. split; [exact Hy|]. intros w Hc. destruct (Hw w Hc).
  - exists order. repeat split; auto.
    intros Hx. specialize (Hall x Hx).
    assert (Hsub : forall m, topo g m -> (forall y, In y m -> y < n) -> incl m order).
    { induction m as [|y m IHm]; intros Hm Hy z Hz; [destruct Hz|].
      destruct Hm as [Hm1 Hm2].
      assert (incl m order) by (apply IHm; auto; intros a Ha; apply Hy; right; exact Ha).
      destruct Hz as [<-|Hz]; [|auto]. apply H5; [apply Hy; left; reflexivity|].
      intros w Hw. apply H, Hm1, Hw. }
    (* restrict l to the existing nodes *)
    assert (Hfil : forall m, topo g m -> topo g (filter (fun v => Nat.ltb v n) m)).
    { induction m as [|y m IHm]; intros Hm; [exact I|]. destruct Hm as [Hm1 Hm2]. simpl.
      destruct (Nat.ltb y n); [|apply IHm; exact Hm2]. split; [|apply IHm; exact Hm2].
      intros w Hw. apply filter_In. split; [apply Hm1, Hw|]. apply Nat.ltb_lt. apply Hwf in Hw; tauto. }
    apply (Hsub (filter (fun v => Nat.ltb v n) l)).
    + apply Hfil; exact Hl.
    + intros y Hy. apply filter_In in Hy as [_ Hy]. apply Nat.ltb_lt; exact Hy.
    + apply filter_In. split; [exact Hall | apply Nat.ltb_lt; exact Hx].
Qed.
End Cyc.
