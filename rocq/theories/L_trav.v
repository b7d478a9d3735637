(** Correctness of the petgraph traversals of [M_graph]. *)
From Verif Require Import M_base M_graph S_graph L_base.

(** ** Reachability *)
Section Star.
Variable E : nat -> nat -> Prop.

Lemma star_trans u v w : star E u v -> star E v w -> star E u w.
Proof. induction 1; intros; auto. econstructor; eauto. Qed.

Lemma star_one u v : E u v -> star E u v.
Proof. intros; econstructor; [eassumption | constructor]. Qed.

Lemma star_last u v : star E u v -> u = v \/ exists w, star E u w /\ E w v.
Proof.
  induction 1 as [v | u v w Huv Hvw IH].
  - left; reflexivity.
  - right. destruct IH as [-> | [x [Hx Hxw]]].
    + exists u; split; [constructor | exact Huv].
    + exists x; split; [econstructor; eauto | exact Hxw].
Qed.

Lemma star_snoc u v w : star E u v -> E v w -> star E u w.
Proof. intros H1 H2. eapply star_trans; [exact H1 | apply star_one; exact H2]. Qed.

(** A path that leaves a set has a crossing edge. *)
Lemma star_exit (P : nat -> Prop) (Pdec : forall x, {P x} + {~ P x}) u v :
  star E u v -> P u -> ~ P v -> exists x y, star E u x /\ P x /\ E x y /\ ~ P y /\ star E y v.
Proof.
  induction 1 as [v | u x w Hux Hxw IH]; intros Hu Hv.
  - contradiction.
  - destruct (Pdec x) as [Hx | Hx].
    + destruct (IH Hx Hv) as [a [b [H1 [H2 [H3 [H4 H5]]]]]].
      exists a, b. repeat split; auto. econstructor; eauto.
    + exists u, x. repeat split; auto. constructor.
Qed.
End Star.

Lemma star_mono (E F : nat -> nat -> Prop) u v :
  (forall a b, E a b -> F a b) -> star E u v -> star F u v.
Proof. intros H; induction 1; [constructor | econstructor; eauto]. Qed.

Lemma star_rev (E : nat -> nat -> Prop) u v : star E u v -> star (fun a b => E b a) v u.
Proof.
  induction 1 as [v | u x w Hux Hxw IH]; [constructor|].
  eapply star_trans; [exact IH | apply star_one; exact Hux].
Qed.

(** ** Neighbour lists *)
Lemma out_nbrs_In {A} (g : graph A) u v : In v (out_nbrs g u) <-> calls g u v.
Proof.
  unfold out_nbrs, calls. rewrite <- in_rev, in_map_iff. split.
  - intros [[a b] [Hb Hin]]. apply filter_In in Hin as [Hin Heq]. simpl in *.
    apply Nat.eqb_eq in Heq. subst. exact Hin.
  - intros H. exists (u, v). split; [reflexivity|]. apply filter_In. split; [exact H|].
    simpl. apply Nat.eqb_refl.
Qed.

Lemma in_nbrs_In {A} (g : graph A) u v : In v (in_nbrs g u) <-> calls g v u.
Proof.
  unfold in_nbrs, calls. rewrite <- in_rev, in_map_iff. split.
  - intros [[a b] [Hb Hin]]. apply filter_In in Hin as [Hin Heq]. simpl in *.
    apply Nat.eqb_eq in Heq. subst. exact Hin.
  - intros H. exists (v, u). split; [reflexivity|]. apply filter_In. split; [exact H|].
    simpl. apply Nat.eqb_refl.
Qed.

Lemma push_In nbrs disc stack x :
  In x (push_undiscovered nbrs disc stack) <-> (In x nbrs /\ ~ In x disc) \/ In x stack.
Proof.
  unfold push_undiscovered. rewrite in_app_iff, <- in_rev, filter_In, negb_true_iff, mem_false.
  tauto.
Qed.

(** ** Measures *)
Section Measure.
Variable nb : nat -> list nat.
Variable n : nat.

(** Total of [f] over the nodes below [n] that are not in [disc]. *)
Definition pend (f : nat -> nat) (disc : list nat) : nat :=
  list_sum (map f (filter (fun v => negb (mem v disc)) (seq 0 n))).

Lemma list_sum_filter_split (f : nat -> nat) (v : nat) (disc l : list nat) :
  NoDup l -> In v l -> ~ In v disc ->
  list_sum (map f (filter (fun x => negb (mem x disc)) l)) =
  f v + list_sum (map f (filter (fun x => negb (mem x (v :: disc))) l)).
Proof.
  induction l as [|x l IH]; intros Hnd Hin Hv; [contradiction|].
  inversion Hnd as [|? ? Hx Hnd']; subst.
  cbn [filter]. destruct (Nat.eq_dec x v) as [->|Hne].
  - assert (mem v disc = false) as -> by (apply mem_false; exact Hv).
    assert (mem v (v :: disc) = true) as -> by (apply mem_In; left; reflexivity).
    simpl. f_equal. f_equal. f_equal.
    clear - Hx. induction l as [|y l IH]; [reflexivity|]. simpl.
    assert (y <> v) by (intros ->; apply Hx; left; reflexivity).
    assert (Nat.eqb y v = false) as -> by (apply Nat.eqb_neq; auto). simpl.
    rewrite IH; [reflexivity|]. intros Hc; apply Hx; right; exact Hc.
  - destruct Hin as [->|Hin]; [congruence|].
    assert (mem x (v :: disc) = mem x disc) as ->.
    { unfold mem; simpl. assert (Nat.eqb x v = false) as -> by (apply Nat.eqb_neq; auto). reflexivity. }
    destruct (mem x disc); simpl; rewrite IH by auto; simpl; lia.
Qed.

Lemma pend_visit f v disc : v < n -> ~ In v disc -> pend f disc = f v + pend f (v :: disc).
Proof.
  intros Hv Hd. unfold pend. apply list_sum_filter_split; auto.
  - apply seq_NoDup.
  - apply in_seq. lia.
Qed.

End Measure.

Lemma sum_filter_le (f : nat -> nat) (p : nat -> bool) l :
  list_sum (map f (filter p l)) <= list_sum (map f l).
Proof. induction l as [|x l IH]; simpl; [lia|]. destruct (p x); simpl; lia. Qed.

Lemma pend_nil n f : pend n f [] = list_sum (map f (seq 0 n)).
Proof.
  unfold pend. assert (H : forall l : list nat, filter (fun v => negb (mem v [])) l = l).
  { induction l as [|x l IH]; [reflexivity|]. simpl in *. rewrite IH. reflexivity. }
  rewrite H. reflexivity.
Qed.

(** Sum of the out-degrees (or in-degrees) is at most the number of edges. *)
Lemma degree_sum (key : nat * nat -> nat) (es : list (nat * nat)) l :
  NoDup l ->
  list_sum (map (fun v => length (filter (fun e => Nat.eqb (key e) v) es)) l) <= length es.
Proof.
  intros Hnd. induction es as [|e es IH]; simpl.
  - assert (list_sum (map (fun _ : nat => 0) l) = 0) as ->; [|lia].
    clear. induction l; simpl; auto.
  - assert (Hle : list_sum (map (fun v => length (if Nat.eqb (key e) v
        then e :: filter (fun e0 => Nat.eqb (key e0) v) es
        else filter (fun e0 => Nat.eqb (key e0) v) es)) l)
      <= 1 + list_sum (map (fun v => length (filter (fun e0 => Nat.eqb (key e0) v) es)) l)).
    { clear IH. induction l as [|v l IHl]; simpl; [lia|].
      inversion Hnd as [|? ? Hv Hnd']; subst.
      destruct (Nat.eqb_spec (key e) v) as [He|He]; simpl.
      - assert (Heq : list_sum (map (fun v => length (if Nat.eqb (key e) v
            then e :: filter (fun e0 => Nat.eqb (key e0) v) es
            else filter (fun e0 => Nat.eqb (key e0) v) es)) l)
          = list_sum (map (fun v => length (filter (fun e0 => Nat.eqb (key e0) v) es)) l)).
        { clear IHl Hnd Hnd'. induction l as [|x l IHl]; simpl; [reflexivity|].
          assert (key e <> x) by (intros Hc; apply Hv; left; congruence).
          assert (Nat.eqb (key e) x = false) as -> by (apply Nat.eqb_neq; auto).
          f_equal. apply IHl. intros Hc; apply Hv; right; exact Hc. }
        rewrite Heq. lia.
      - specialize (IHl Hnd'). lia. }
    lia.
Qed.

Lemma out_degree_sum {A} (g : graph A) n :
  list_sum (map (fun v => length (out_nbrs g v)) (seq 0 n)) <= length (gedges g).
Proof.
  erewrite map_ext; [apply (degree_sum fst (gedges g)), seq_NoDup|].
  intros v. unfold out_nbrs. rewrite rev_length, map_length. reflexivity.
Qed.

Lemma in_degree_sum {A} (g : graph A) n :
  list_sum (map (fun v => length (in_nbrs g v)) (seq 0 n)) <= length (gedges g).
Proof.
  erewrite map_ext; [apply (degree_sum snd (gedges g)), seq_NoDup|].
  intros v. unfold in_nbrs. rewrite rev_length, map_length. reflexivity.
Qed.

Lemma push_length nbrs disc stack :
  length (push_undiscovered nbrs disc stack) <= length nbrs + length stack.
Proof.
  unfold push_undiscovered. rewrite app_length, rev_length.
  assert (length (filter (fun s => negb (mem s disc)) nbrs) <= length nbrs).
  { induction nbrs as [|x l IH]; simpl; [lia|]. destruct (negb (mem x disc)); simpl; lia. }
  lia.
Qed.

(** ** Dfs *)
Section Dfs.
Variable nb : nat -> list nat.
Variable n : nat.
Hypothesis nb_lt : forall u v, u < n -> In v (nb u) -> v < n.

Definition E : nat -> nat -> Prop := fun u v => In v (nb u).

Lemma dfs_run_fuel fuel stack disc acc :
  (forall x, In x stack -> x < n) ->
  length stack + pend n (fun v => length (nb v)) disc < fuel ->
  exists r, dfs_run nb fuel stack disc acc = Some r.
Proof.
  revert stack disc acc; induction fuel as [|fuel IH]; intros stack disc acc Hlt Hf; [lia|].
  simpl. destruct stack as [|v st]; [eexists; reflexivity|].
  destruct (mem_spec v disc) as [Hm|Hm].
  - apply IH; [intros x Hx; apply Hlt; right; exact Hx | simpl in Hf; lia].
  - apply IH.
    + intros x Hx. apply push_In in Hx as [[Hx _]|Hx].
      * eapply nb_lt; [|exact Hx]. apply Hlt; left; reflexivity.
      * apply Hlt; right; exact Hx.
    + assert (v < n) by (apply Hlt; left; reflexivity).
      rewrite (pend_visit n (fun v => length (nb v)) v disc) in Hf by auto.
      pose proof (push_length (nb v) (v :: disc) st). simpl in Hf. lia.
Qed.

(** The run collects exactly the undiscovered nodes reachable from the stack. *)
Lemma dfs_run_spec fuel stack disc acc out disc' :
  (forall d s, In d disc -> E d s -> In s disc \/ In s stack) ->
  dfs_run nb fuel stack disc acc = Some (out, disc') ->
  exists new,
    out = rev acc ++ new /\ disc' = rev new ++ disc /\
    (NoDup disc -> NoDup disc') /\
    (forall x, In x new -> ~ In x disc) /\
    (forall x, In x new -> exists s, In s stack /\ star E s x) /\
    (forall s, In s stack -> In s disc') /\
    (forall d s, In d disc' -> E d s -> In s disc').
Proof.
  revert stack disc acc; induction fuel as [|fuel IH]; intros stack disc acc Hcl Hrun; [discriminate|].
  simpl in Hrun. destruct stack as [|v st].
  - inversion Hrun; subst. exists []. rewrite app_nil_r. simpl.
    repeat split; auto; try tauto.
    intros d s Hd Hs. destruct (Hcl d s Hd Hs) as [H|[]]; exact H.
  - destruct (mem_spec v disc) as [Hm|Hm].
    + destruct (IH st disc acc) as [new [H1 [H2 [H3 [H4 [H5 [H6 H7]]]]]]]; auto.
      { intros d s Hd Hs. destruct (Hcl d s Hd Hs) as [H|[H|H]]; auto. subst; left; exact Hm. }
      exists new. repeat split; auto.
      * intros x Hx. destruct (H5 x Hx) as [s [Hs Hr]]. exists s; split; [right|]; auto.
      * intros s [<-|Hs]; auto. rewrite H2. apply in_or_app; right; exact Hm.
    + destruct (IH (push_undiscovered (nb v) (v :: disc) st) (v :: disc) (v :: acc))
        as [new [H1 [H2 [H3 [H4 [H5 [H6 H7]]]]]]]; auto.
      { intros d s [<-|Hd] Hs.
        - destruct (mem_spec s (v :: disc)) as [Hin|Hin]; [left; exact Hin|].
          right. apply push_In. left; split; [exact Hs | exact Hin].
        - destruct (Hcl d s Hd Hs) as [H|[H|H]].
          + left; right; exact H.
          + subst; left; left; reflexivity.
          + right; apply push_In; right; exact H. }
      exists (v :: new). repeat split.
      * rewrite H1. simpl. rewrite <- app_assoc. reflexivity.
      * rewrite H2. simpl. rewrite <- app_assoc. reflexivity.
      * intros Hnd. apply H3. constructor; auto.
      * intros x [<-|Hx]; auto. specialize (H4 x Hx). intros Hc; apply H4; right; exact Hc.
      * intros x [<-|Hx].
        -- exists v; split; [left; reflexivity | constructor].
        -- destruct (H5 x Hx) as [s [Hs Hr]]. apply push_In in Hs as [[Hs _]|Hs].
           ++ exists v; split; [left; reflexivity | econstructor; eauto].
           ++ exists s; split; [right; exact Hs | exact Hr].
      * intros s [<-|Hs].
        -- rewrite H2. apply in_or_app; right; left; reflexivity.
        -- apply H6. apply push_In; right; exact Hs.
      * exact H7.
Qed.

Lemma star_closed (D : list nat) u v :
  (forall d s, In d D -> E d s -> In s D) -> star E u v -> In u D -> In v D.
Proof. intros Hcl; induction 1; intros; eauto. Qed.

(** Specialisation used by the callers: one start node and a closed discovered set. *)
Lemma dfs_run_from fuel i disc out disc' :
  ~ In i disc ->
  (forall d s, In d disc -> E d s -> In s disc) ->
  dfs_run nb fuel [i] disc [] = Some (out, disc') ->
  disc' = rev out ++ disc /\ (NoDup disc -> NoDup disc') /\ (exists rest, out = i :: rest) /\
  (forall x, In x out <-> star E i x /\ ~ In x disc) /\
  (forall d s, In d disc' -> E d s -> In s disc').
Proof.
  intros Hi Hcl Hrun.
  assert (Hhd : exists rest, out = i :: rest).
  { destruct fuel as [|fuel]; simpl in Hrun; [discriminate|].
    destruct (mem_spec i disc) as [Hm|_]; [contradiction|].
    apply dfs_run_spec in Hrun.
    - destruct Hrun as [new [Ho _]]. exists new. exact Ho.
    - intros d s [<-|Hd] Hs.
      + destruct (mem_spec s (i :: disc)) as [Hin|Hin]; [left; exact Hin|].
        right. apply push_In. left; split; [exact Hs | exact Hin].
      + left. right. eapply Hcl; eauto. }
  apply dfs_run_spec in Hrun; [|intros d s Hd Hs; left; eapply Hcl; eauto].
  destruct Hrun as [new [H1 [H2 [H3 [H4 [H5 [H6 H7]]]]]]]. simpl in H1. subst out.
  repeat split; auto.
  - destruct (H5 x H) as [s [[<-|[]] Hr]]. exact Hr.
  - intros [Hr Hx]. assert (Hin : In x disc').
    { eapply star_closed; [exact H7 | exact Hr | apply H6; left; reflexivity]. }
    rewrite H2 in Hin. apply in_app_or in Hin as [Hin|Hin]; [apply in_rev; exact Hin | contradiction].
Qed.

End Dfs.
