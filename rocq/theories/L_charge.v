(** The charge and the certainty of a recursion group in terms of those of its callees. *)
From Verif Require Import M_base M_stack M_graph S_graph L_base L_trav L_kosaraju.
Local Open Scope N_scope.

Lemma total_app w a b : total w (a ++ b) = total w a + total w b.
Proof. induction a as [|x a IH]; simpl; [lia|]. rewrite IH. lia. Qed.

Lemma sublist_In {A} (a b : list A) x : sublist a b -> In x a -> In x b.
Proof. induction 1; intros Hx; simpl in *; [destruct Hx | destruct Hx as [<-|Hx]; auto | auto]. Qed.

Lemma sublist_refl {A} (a : list A) : sublist a a.
Proof. induction a; constructor; auto. Qed.

Lemma sublist_app_l {A} (a b c : list A) : sublist a c -> sublist a (b ++ c).
Proof. induction b; simpl; intros; auto. constructor; auto. Qed.

Lemma sublist_trans {A} (a b c : list A) : sublist a b -> sublist b c -> sublist a c.
Proof.
  intros H1 H2. revert a H1; induction H2; intros a' H1.
  - inversion H1; subst; constructor.
  - inversion H1; subst; constructor; auto.
  - constructor; auto.
Qed.

Lemma sublist_app_inv {A} (q a b : list A) :
  sublist q (a ++ b) -> exists q1 q2, q = q1 ++ q2 /\ sublist q1 a /\ sublist q2 b.
Proof.
  revert q; induction a as [|x a IH]; simpl; intros q H.
  - exists [], q. repeat split; [constructor | exact H].
  - inversion H; subst.
    + exists [], []. repeat split; constructor.
    + destruct (IH _ H2) as [q1 [q2 [-> [H3 H4]]]]. exists (x :: q1), q2. repeat split; auto. constructor; auto.
    + destruct (IH _ H2) as [q1 [q2 [-> [H3 H4]]]]. exists q1, q2. repeat split; auto. constructor; auto.
Qed.

Lemma opg_app_l {A} (g : graph A) a b : one_per_group g (a ++ b) -> one_per_group g a.
Proof.
  induction a as [|x a IH]; simpl; intros H; [constructor|]. inversion H; subst.
  constructor; auto. intros u Hu. apply H2, in_or_app; left; exact Hu.
Qed.
Lemma opg_app_r {A} (g : graph A) a b : one_per_group g (a ++ b) -> one_per_group g b.
Proof. induction a as [|x a IH]; simpl; intros H; auto. inversion H; subst; auto. Qed.

Lemma mutual_refl {A} (g : graph A) v : mutual g v v.
Proof. split; constructor. Qed.
Lemma mutual_sym {A} (g : graph A) u v : mutual g u v -> mutual g v u.
Proof. intros [H1 H2]; split; auto. Qed.
Lemma mutual_trans {A} (g : graph A) u v w : mutual g u v -> mutual g v w -> mutual g u w.
Proof. intros [H1 H2] [H3 H4]; split; eapply star_trans; eauto. Qed.

Lemma opg_NoDup {A} (g : graph A) q : one_per_group g q -> NoDup q.
Proof.
  induction 1; constructor; auto. intros Hc. apply (H v Hc). apply mutual_refl.
Qed.

Section Charge.
Context {A : Type}.
Variable g : graph A.

Lemma chain_head v p : chain g v p -> exists p', p = v :: p'.
Proof. inversion 1; eauto. Qed.

Lemma chain_reach v p : chain g v p -> forall x, In x p -> reach g v x.
Proof.
  induction 1 as [v Hv|v w p Hc Hp IH]; intros x Hx.
  - destruct Hx as [<-|[]]; constructor.
  - destruct Hx as [<-|Hx]; [constructor | eapply star_step; [exact Hc | apply IH; exact Hx]].
Qed.

Lemma chain_lt : wf_graph g -> forall v p, chain g v p -> forall x, In x p -> (x < node_count g)%nat.
Proof.
  intros Hwf v p H. induction H as [v Hv|v w p Hc Hp IH]; intros x Hx.
  - destruct Hx as [<-|[]]; exact Hv.
  - destruct Hx as [<-|Hx]; [apply Hwf in Hc; tauto | auto].
Qed.

(** A path to a node followed by a chain from it. *)
Lemma chain_extend u v p : reach g u v -> chain g v p ->
  exists pre, chain g u (pre ++ p) /\ (forall x, In x pre -> reach g u x /\ reach g x v).
Proof.
  induction 1 as [v|u x v Hux Hxv IH]; intros Hp.
  - exists []. split; [exact Hp | intros y []].
  - destruct (IH Hp) as [pre [H1 H2]]. exists (u :: pre). split.
    + simpl. econstructor; eauto.
    + intros y [<-|Hy].
      * split; [constructor | eapply star_step; [exact Hux | exact Hxv]].
      * destruct (H2 y Hy). split; [eapply star_step; [exact Hux | exact H] | auto].
Qed.

(** A chain from a member of a group stays in the group, or leaves it through a call and continues. *)
Lemma chain_split (C : nat -> Prop) (Cdec : forall x, {C x} + {~ C x}) v p :
  chain g v p -> C v ->
  (forall x, In x p -> C x) \/
  exists p1 p2 x w, p = p1 ++ p2 /\ (forall y, In y p1 -> C y) /\ C x /\ calls g x w /\ ~ C w /\
    chain g w p2.
Proof.
  induction 1 as [v Hv|v w p Hc Hp IH]; intros HC.
  - left. intros x [<-|[]]; exact HC.
  - destruct (Cdec w) as [Hw|Hw].
    + destruct (IH Hw) as [H|[p1 [p2 [x [w' [-> [H1 [H2 [H3 [H4 H5]]]]]]]]]].
      * left. intros x [<-|Hx]; auto.
      * right. exists (v :: p1), p2, x, w'. repeat split; auto.
        intros y [<-|Hy]; auto.
    + right. exists [v], p, v, w. repeat split; auto.
      intros y [<-|[]]; exact HC.
Qed.
End Charge.

Lemma known_usage_known g v n : known g v n -> known_usage g v = n.
Proof. unfold known, known_usage. intros ->. reflexivity. Qed.

Lemma known_usage_le g w v : true_usage g w -> known_usage g v <= w v.
Proof.
  intros H. unfold known_usage. destruct (local_of g v) as [[n|]|] eqn:E; try lia.
  rewrite (H v n E). lia.
Qed.

(** Total usage over a duplicate-free list of nodes is at most that of all nodes. *)
Lemma total_sub w q l : NoDup q -> incl q l -> total w q <= total w l.
Proof.
  revert l; induction q as [|x q IH]; intros l Hnd Hin; simpl; [lia|].
  inversion Hnd; subst.
  destruct (in_split x l) as [l1 [l2 ->]]; [apply Hin; left; reflexivity|].
  specialize (IH (l1 ++ l2) H2).
  rewrite total_app in *. simpl.
  assert (incl q (l1 ++ l2)).
  { intros y Hy. assert (In y (l1 ++ x :: l2)) by (apply Hin; right; exact Hy).
    apply in_app_or in H as [H|[H|H]]; apply in_or_app; auto. subst; contradiction. }
  specialize (IH H). lia.
Qed.

Lemma charge_bound g v n : wf_graph g -> charge g v n -> n <= sum_known g.
Proof.
  intros Hwf [[p [q [Hp [Hs [Ho <-]]]]] _]. unfold sum_known. apply total_sub.
  - eapply opg_NoDup; eauto.
  - intros x Hx. apply in_seq. split; [lia|]. simpl. eapply chain_lt; eauto. eapply sublist_In; eauto.
Qed.

Lemma charge_unique g v n m : charge g v n -> charge g v m -> n = m.
Proof.
  intros [[p [q [Hp [Hs [Ho Hn]]]]] Hu] [[p' [q' [Hp' [Hs' [Ho' Hm]]]]] Hu'].
  assert (n <= m) by (rewrite <- Hn; eauto).
  assert (m <= n) by (rewrite <- Hm; eauto). lia.
Qed.

Section Group.
Variable g : graph node.
Hypothesis Hwf : wf_graph g.
(** A recursion group given as a list. *)
Variable C : list nat.
Variable v : nat.
Hypothesis HvC : In v C.
Hypothesis Hlt : forall x, In x C -> (x < node_count g)%nat.
Hypothesis HC : forall x y, In x C -> (In y C <-> mutual g x y).

Definition leaves (w : nat) : Prop := exists x, In x C /\ calls g x w /\ ~ In w C.

Lemma C_reach x y : In x C -> In y C -> reach g x y.
Proof. intros Hx Hy. apply (HC x y Hx) in Hy. apply Hy. Qed.

Lemma leaves_no_return w x : leaves w -> In x C -> ~ reach g w x.
Proof.
  intros [y [Hy [Hc Hn]]] Hx Hr. apply Hn. apply (HC y w Hy). split.
  - apply star_one; exact Hc.
  - eapply star_trans; [exact Hr | apply C_reach; auto].
Qed.

Lemma group_charge L n :
  (exists x, In x C /\ known_usage g x = L) -> (forall x, In x C -> known_usage g x <= L) ->
  ((forall w, ~ leaves w) /\ n = L \/
   (exists w m, leaves w /\ charge g w m /\ n = L + m /\
      forall w' m', leaves w' -> charge g w' m' -> m' <= m) /\
   (forall w, leaves w -> exists m, charge g w m)) ->
  charge g v n.
Proof.
  intros [x [Hx HL]] HLmax Hcase. split.
  - destruct Hcase as [[Hno ->]|[[w [m [Hw [Hm [-> _]]]]] _]].
    + destruct (chain_extend g v x [x]) as [pre [Hp _]].
      { apply C_reach; auto. } { constructor; auto. }
      exists (pre ++ [x]), [x]. repeat split.
      * exact Hp.
      * apply sublist_app_l, sublist_refl.
      * constructor; [intros u [] | constructor].
      * simpl. lia.
    + destruct Hm as [[p [q [Hp [Hs [Ho Hq]]]]] _].
      pose proof Hw as [y [Hy [Hc Hn]]].
      (* v ->* x ->* y -> w *)
      assert (Hyp : chain g y (y :: p)) by (econstructor; eauto).
      destruct (chain_extend g x y (y :: p)) as [pre2 [Hp2 _]]; [apply C_reach; auto | exact Hyp |].
      destruct (chain_head g x _ Hp2) as [p3 Hp3].
      destruct (chain_extend g v x (pre2 ++ y :: p)) as [pre1 [Hp1 _]]; [apply C_reach; auto | exact Hp2 |].
      exists (pre1 ++ pre2 ++ y :: p), (x :: q). repeat split.
      * exact Hp1.
      * apply sublist_app_l. destruct pre2 as [|a pre2]; simpl in Hp3; inversion Hp3; subst.
        -- simpl. constructor. exact Hs.
        -- simpl. constructor. apply sublist_app_l. constructor. exact Hs.
      * constructor; [|exact Ho]. intros u Hu [_ Hm].
        apply (leaves_no_return w x Hw Hx).
        eapply star_trans; [eapply chain_reach; [exact Hp | eapply sublist_In; eauto] | exact Hm].
      * simpl. rewrite Hq, HL. reflexivity.
  - intros p q Hp Hs Ho.
    assert (Hin : forall q', one_per_group g q' -> (forall y, In y q' -> In y C) ->
              total (known_usage g) q' <= L).
    { intros q' Ho' Hq'. destruct q' as [|a [|b q']]; simpl.
      - lia.
      - specialize (HLmax a). assert (In a C) by (apply Hq'; left; reflexivity). specialize (HLmax H). lia.
      - exfalso. inversion Ho'; subst. apply (H1 b); [left; reflexivity|].
        apply HC; apply Hq'; [left; reflexivity | right; left; reflexivity]. }
    destruct (chain_split g (fun x => In x C) (fun x => In_dec_nat x C) v p Hp HvC)
      as [Hall|[p1 [p2 [y [w [-> [H1 [H2 [H3 [H4 H5]]]]]]]]]].
    + assert (total (known_usage g) q <= L).
      { apply Hin; auto. intros y Hy. apply Hall. eapply sublist_In; eauto. }
      destruct Hcase as [[_ ->]|[[w [m [_ [_ [-> _]]]]] _]]; lia.
    + apply sublist_app_inv in Hs as [q1 [q2 [-> [Hs1 Hs2]]]].
      rewrite total_app.
      assert (total (known_usage g) q1 <= L).
      { apply Hin; [eapply opg_app_l; eauto|]. intros z Hz. apply H1. eapply sublist_In; eauto. }
      assert (Hw : leaves w) by (exists y; auto).
      destruct Hcase as [[Hno _]|[[w0 [m [Hw0 [Hm [-> Hmax]]]]] Hex]]; [exfalso; eapply Hno; eauto|].
      destruct (Hex w Hw) as [m' Hm'].
      assert (total (known_usage g) q2 <= m').
      { destruct Hm' as [_ Hu]. eapply Hu; eauto. eapply opg_app_r; eauto. }
      specialize (Hmax w m' Hw Hm'). lia.
Qed.

(** Reachability from a group member. *)
Lemma group_reach u : reach g v u -> In u C \/ exists w, leaves w /\ reach g w u.
Proof.
  intros Hr. destruct (In_dec_nat u C) as [H|H]; [left; exact H|]. right.
  destruct (star_exit (calls g) (fun x => In x C) (fun x => In_dec_nat x C) v u Hr HvC H)
    as [x [y [H1 [H2 [H3 [H4 H5]]]]]].
  exists y. split; [exists x; auto | exact H5].
Qed.

Lemma leaves_reach w : leaves w -> reach g v w.
Proof.
  intros [x [Hx [Hc _]]]. eapply star_snoc; [apply C_reach; eauto | exact Hc].
Qed.

Lemma group_uncertain :
  uncertain g v <->
  (exists x, In x C /\ unknown g x) \/
  (exists x n, In x C /\ recursive g x /\ known g x n /\ n <> 0) \/
  (exists w, leaves w /\ uncertain g w).
Proof.
  split.
  - intros [[u [Hr Hu]]|[u [n [Hr [Hrec [Hk Hn]]]]]].
    + destruct (group_reach u Hr) as [H|[w [Hw Hwu]]].
      * left; eauto.
      * right; right. exists w; split; [exact Hw|]. left; eauto.
    + destruct (group_reach u Hr) as [H|[w [Hw Hwu]]].
      * right; left; exists u, n; auto.
      * right; right. exists w; split; [exact Hw|]. right. exists u, n; auto.
  - intros [[x [Hx Hu]]|[[x [n [Hx [Hrec [Hk Hn]]]]]|[w [Hw Hu]]]].
    + left. exists x. split; [apply C_reach; auto | exact Hu].
    + right. exists x, n. split; [apply C_reach; auto | auto].
    + apply leaves_reach in Hw.
      destruct Hu as [[u [Hr Hu]]|[u [n [Hr Hu]]]].
      * left. exists u; split; [eapply star_trans; eauto | exact Hu].
      * right. exists u, n; split; [eapply star_trans; eauto | exact Hu].
Qed.
End Group.
