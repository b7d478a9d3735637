(** Lemmas on the shared vocabulary. *)
From Verif Require Import M_base.

Lemma mem_In v l : mem v l = true <-> In v l.
Proof.
  unfold mem. rewrite existsb_exists. split.
  - intros [x [Hx He]]. apply Nat.eqb_eq in He. subst. exact Hx.
  - intros H. exists v. split; [exact H | apply Nat.eqb_refl].
Qed.

Lemma mem_false v l : mem v l = false <-> ~ In v l.
Proof.
  rewrite <- mem_In. destruct (mem v l); split; intros; try congruence; exfalso; auto.
Qed.

Lemma mem_spec v l : reflect (In v l) (mem v l).
Proof.
  destruct (mem v l) eqn:E; constructor.
  - apply mem_In; exact E.
  - apply mem_false; exact E.
Qed.

Lemma str_eqb_eq a b : str_eqb a b = true <-> a = b.
Proof.
  revert b; induction a as [|x a IH]; intros [|y b]; simpl; split; intros H; try congruence; auto.
  - apply andb_true_iff in H as [H1 H2]. apply Ascii.eqb_eq in H1. apply IH in H2. congruence.
  - inversion H; subst. rewrite Ascii.eqb_refl. simpl. apply IH. reflexivity.
Qed.

Lemma str_eqb_refl a : str_eqb a a = true.
Proof. apply str_eqb_eq; reflexivity. Qed.

Lemma str_eqb_neq a b : str_eqb a b = false <-> a <> b.
Proof.
  rewrite <- str_eqb_eq. destruct (str_eqb a b); split; intros; try congruence; exfalso; auto.
Qed.

Lemma str_eqb_spec a b : reflect (a = b) (str_eqb a b).
Proof.
  destruct (str_eqb a b) eqn:E; constructor.
  - apply str_eqb_eq; exact E.
  - apply str_eqb_neq; exact E.
Qed.

Lemma smem_In v l : smem v l = true <-> In v l.
Proof.
  unfold smem. rewrite existsb_exists. split.
  - intros [x [Hx He]]. apply str_eqb_eq in He. subst. exact Hx.
  - intros H. exists v. split; [exact H | apply str_eqb_refl].
Qed.

Lemma smem_false v l : smem v l = false <-> ~ In v l.
Proof.
  rewrite <- smem_In. destruct (smem v l); split; intros; try congruence; exfalso; auto.
Qed.

Lemma starts_with_app p s : starts_with p s = true <-> exists r, s = p ++ r.
Proof.
  revert s; induction p as [|x p IH]; intros s; simpl.
  - split; intros; [exists s; reflexivity | reflexivity].
  - destruct s as [|y s].
    + split; [congruence | intros [r Hr]; discriminate].
    + rewrite andb_true_iff, Ascii.eqb_eq, IH. split.
      * intros [-> [r ->]]. exists r; reflexivity.
      * intros [r Hr]. inversion Hr; subst. split; [reflexivity | exists r; reflexivity].
Qed.

Lemma starts_with_refl p r : starts_with p (p ++ r) = true.
Proof. apply starts_with_app. exists r; reflexivity. Qed.

Lemma strip_prefix_app p s r : strip_prefix p s = Some r <-> s = p ++ r.
Proof.
  revert s; induction p as [|x p IH]; intros s; simpl.
  - split; congruence.
  - destruct s as [|y s].
    + split; discriminate.
    + destruct (Ascii.eqb x y) eqn:E.
      * apply Ascii.eqb_eq in E; subst. rewrite IH. split; congruence.
      * apply Ascii.eqb_neq in E. split; [discriminate | intros H; inversion H; congruence].
Qed.

Lemma bind_Ret {A B} (x : outcome A) (f : A -> outcome B) b :
  bind x f = Ret b <-> exists a, x = Ret a /\ f a = Ret b.
Proof.
  destruct x; simpl; split; intros H.
  - exists a; split; auto.
  - destruct H as [a' [Ha Hf]]. inversion Ha; subst; exact Hf.
  - discriminate.
  - destruct H as [a' [Ha _]]; discriminate.
  - discriminate.
  - destruct H as [a' [Ha _]]; discriminate.
  - discriminate.
  - destruct H as [a' [Ha _]]; discriminate.
Qed.

Lemma filter_le {A} (p : A -> bool) l : length (filter p l) <= length l.
Proof. induction l as [|x l IH]; simpl; [lia|]. destruct (p x); simpl; lia. Qed.
