(** Debug and release builds: machine code. *)
From Coq Require Import Sorted.
From Verif Require Import M_base M_stack M_graph M_analysis M_filter M_names M_thumb M_ty M_parse M_render M_build M_run M_debug S_debug L_base L_thumb L_thumb2.

Notation "d <~ r" := (same_or_overflow d r) (at level 70).

Lemma so_refl {A} (x : outcome A) : x <~ x. Proof. now left. Qed.
Lemma so_bind {A B} (x y : outcome A) (f g : A -> outcome B) : x <~ y -> (forall a, y = Ret a -> f a <~ g a) -> bind x f <~ bind y g.
Proof.
  intros [->|[m [-> O]]] H; [|right; exists m; split; [reflexivity | exact O]].
  destruct y; cbn [bind]; [now apply H | left; reflexivity ..].
Qed.
Lemma so_bind_same {A B} (x : outcome A) (f g : A -> outcome B) : (forall a, x = Ret a -> f a <~ g a) -> bind x f <~ bind x g.
Proof. apply so_bind, so_refl. Qed.
(** The debug build computes a value that the release build computes without a bind. *)
Lemma so_ret {A B} (x : outcome A) (a : A) (f : A -> outcome B) (r : outcome B) : x <~ Ret a -> f a <~ r -> bind x f <~ r.
Proof. intros [->|[m [-> O]]] H; [exact H | right; exists m; split; [reflexivity | exact O]]. Qed.
Lemma so_panic {A} m (r : outcome A) : overflow m -> Panic m <~ r. Proof. intros O. right. exists m. split; [reflexivity | exact O]. Qed.
Lemma ov_add : overflow m_add. Proof. now left. Qed.
Lemma ov_sub : overflow m_sub. Proof. now right; left. Qed.
Lemma ov_mul : overflow m_mul. Proof. now right; right. Qed.

(** * The operations *)
Lemma in_i32_spec z : reflect (- 2 ^ 31 <= z < 2 ^ 31)%Z (in_i32 z).
Proof.
  apply iff_reflect. unfold in_i32. rewrite andb_true_iff, Z.leb_le, Z.ltb_lt. reflexivity.
Qed.
Lemma add_i32_ok a b : (- 2 ^ 31 <= a + b < 2 ^ 31)%Z -> add_i32 a b = Ret (a + b)%Z.
Proof. intros H. unfold add_i32. destruct (in_i32_spec (a + b)); [reflexivity | contradiction]. Qed.
Lemma mul_i32_ok a b : (- 2 ^ 31 <= a * b < 2 ^ 31)%Z -> mul_i32 a b = Ret (a * b)%Z.
Proof. intros H. unfold mul_i32. destruct (in_i32_spec (a * b)); [reflexivity | contradiction]. Qed.
Lemma add_u32_ok a b : (a + b < 2 ^ 32)%N -> add_u32 a b = Ret (a + b)%N.
Proof. intros H. unfold add_u32. apply N.ltb_lt in H. now rewrite H. Qed.
Lemma mul_u32_ok a b : (a * b < 2 ^ 32)%N -> mul_u32 a b = Ret (a * b)%N.
Proof. intros H. unfold mul_u32. apply N.ltb_lt in H. now rewrite H. Qed.
Lemma sub_u32_ok a b : (b <= a)%N -> sub_u32 a b = Ret (a - b)%N.
Proof. intros H. unfold sub_u32. apply N.leb_le in H. now rewrite H. Qed.
Lemma add_u64_ok a b : (a + b < two64)%N -> add_u64 a b = Ret (a + b)%N.
Proof. intros H. unfold add_u64. apply N.ltb_lt in H. now rewrite H. Qed.
Lemma sub_wrap a b : (b <= a)%N -> (a < 2 ^ 32)%N -> ((a + 2 ^ 32 - b) mod 2 ^ 32 = a - b)%N.
Proof.
  intros L U. replace (a + 2 ^ 32 - b)%N with (a - b + 1 * 2 ^ 32)%N by lia. rewrite N.mod_add by (vm_compute; discriminate).
  apply N.mod_small. change (2 ^ 32)%N with 4294967296%N in *. lia.
Qed.
Lemma so_sub a b : (a < 2 ^ 32)%N -> sub_u32 a b <~ Ret ((a + 2 ^ 32 - b) mod 2 ^ 32)%N.
Proof.
  intros U. unfold sub_u32. destruct (N.leb_spec b a) as [L|L]; [|apply so_panic, ov_sub]. left. f_equal. symmetry. now apply sub_wrap.
Qed.
Lemma so_add_u32 a b : add_u32 a b <~ Ret ((a + b) mod 2 ^ 32)%N.
Proof.
  unfold add_u32. destruct (N.ltb_spec (a + b) (2 ^ 32)) as [L|L]; [|apply so_panic, ov_add]. left. f_equal. symmetry. now apply N.mod_small.
Qed.
Lemma so_add_u64 a b : add_u64 a b <~ Ret ((a + b) mod two64)%N.
Proof.
  unfold add_u64. destruct (N.ltb_spec (a + b) two64) as [L|L]; [|apply so_panic, ov_add]. left. f_equal. symmetry. now apply N.mod_small.
Qed.
Lemma so_mul_u32 a b : mul_u32 a b <~ Ret (a * b)%N.
Proof. unfold mul_u32. destruct (_ <? _)%N; [apply so_refl | apply so_panic, ov_mul]. Qed.
Lemma so_next i : next_d i <~ Ret (N.succ i).
Proof.
  unfold next_d, add_i32. destruct (in_i32 _); cbn [bind]; [left; f_equal; lia | apply so_panic, ov_add].
Qed.
Lemma next_ok i : (i + 1 < 2 ^ 31)%N -> next_d i = Ret (N.succ i).
Proof.
  intros H. unfold next_d. rewrite add_i32_ok; [cbn [bind]; f_equal; lia|]. change (2 ^ 31)%N with 2147483648%N in H. change (2 ^ 31)%Z with 2147483648%Z. lia.
Qed.

(** * Instructions *)
Lemma so_advance imm i : advance_d imm i <~ Ret (wrap32 (imm + (2 * i + 4))).
Proof.
  unfold advance_d, mul_i32. destruct (in_i32 (2 * i)); cbn [bind]; [|apply so_panic, ov_mul].
  unfold add_i32 at 1. destruct (in_i32 (2 * i + 4)); cbn [bind]; [|apply so_panic, ov_add].
  unfold add_i32. destruct (in_i32_spec (imm + (2 * i + 4))) as [H|H]; [|apply so_panic, ov_add]. left. f_equal. symmetry. now apply wrap32_id.
Qed.
Lemma so_push_b imm i len s : push_b_d imm i len s <~ Ret (push_b imm i len s).
Proof. unfold push_b_d. eapply so_ret; [apply so_advance|]. apply so_refl. Qed.
Lemma so_push_bl imm i s : push_bl_d imm i s <~ Ret (push_bl imm i s).
Proof. unfold push_bl_d. eapply so_ret; [apply so_advance|]. apply so_refl. Qed.
Lemma so_lower n s : lower_sp_d n s <~ Ret (lower_sp n s).
Proof.
  unfold lower_sp_d, lower_sp. destruct (stack s) as [k|]; [|apply so_refl]. eapply (so_ret _ (Some ((k + n) mod two64)%N)); [|apply so_refl].
  eapply so_ret; [apply so_add_u64 | apply so_refl].
Qed.
Lemma so_exec16 k h i len s : exec16_d k h i len s <~ exec16 k h i len s.
Proof.
  destruct k; cbn [exec16_d exec16]; cbv zeta; try apply so_refl; try apply so_push_b; try apply so_lower.
  destruct (_ =? 14)%N; [apply so_refl|]. destruct (_ =? 15)%N; [apply so_refl | apply so_push_b].
Qed.
Lemma so_exec32 v7 f2 w i len s : exec32_d v7 f2 w i len s <~ exec32 v7 f2 w i len s.
Proof.
  unfold exec32_d, exec32. cbv zeta.
  do 8 (apply so_bind_same; intros [|] _;
    [repeat (match goal with |- context [if ?c then _ else _] => destruct c end);
     first [apply so_refl | apply so_lower | apply so_push_b | apply so_push_bl] |]).
  apply so_refl.
Qed.

(** * The loop *)
Lemma bsearch_found fuel tags a : forall l r k, bsearch fuel tags a l r = Ret (Some k) -> exists x, nth_error tags k = Some (a, x).
Proof.
  induction fuel as [|fuel IH]; intros l r k; cbn [bsearch]; [discriminate|]. destruct (l <? r); [|discriminate].
  destruct (nth_error tags (l + (r - l) / 2)) as [[b x]|] eqn:E; [|discriminate]. destruct (N.eqb_spec b a) as [->|D].
  - intros H. injection H as <-. exists x. exact E.
  - destruct (b <? a)%N; apply IH.
Qed.
Lemma find_tag_found tags a k : find_tag tags a = Ret (Some k) -> exists x, nth_error tags k = Some (a, x).
Proof. apply bsearch_found. Qed.
Lemma so_at_tag tags start : proper_tags tags -> at_tag_d tags start <~ at_tag tags start.
Proof.
  intros [_ T]. unfold at_tag_d, at_tag. apply so_bind_same. intros [k|] _; [|apply so_refl].
  destruct (nth_error tags k) as [[a [|]]|]; try apply so_refl.
  all: destruct (nth_error tags (S k)) as [[b [|]]|] eqn:E; try apply so_refl.
  all: eapply so_ret; [apply so_sub; exact (T _ _ (nth_error_In _ _ E)) | apply so_refl].
Qed.
Lemma so_aloop v7 address tags len : proper_tags tags -> forall n hs, length hs <= n -> forall i skip s,
  aloop_d v7 address tags len hs i skip s <~ aloop v7 address tags len hs i skip s.
Proof.
  intros T. induction n as [|n IH]; intros [|h hs] L i skip s; try apply so_refl; [cbn in L; lia|]. cbn [length] in L. cbn [aloop_d aloop].
  eapply so_ret; [apply so_next|]. destruct (skip =? 0)%N; [|apply IH; lia].
  eapply so_ret; [apply so_mul_u32|]. eapply so_ret; [apply so_add_u32|].
  apply so_bind; [now apply so_at_tag|]. intros [|m|] _; [| apply IH; lia | apply so_refl].
  apply so_bind_same. intros [k|] _.
  - apply so_bind; [apply so_exec16|]. intros s' _. apply IH. lia.
  - destruct hs as [|h2 hs]; [apply so_refl|]. eapply so_ret; [apply so_next|].
    apply so_bind; [apply so_exec32|]. intros s' _. apply IH. cbn in L. lia.
Qed.
Lemma so_analyze bytes address v7 tags : proper_tags tags -> analyze_d bytes address v7 tags <~ analyze bytes address v7 tags.
Proof. intros T. unfold analyze_d, analyze. now apply (so_aloop _ _ _ _ T (length (chunks2 bytes))). Qed.

(** * Edges *)
Lemma so_code_size tags a sym : proper_tags tags -> code_size_d tags a sym <~ code_size tags a sym.
Proof.
  intros [_ T]. unfold code_size_d, code_size. destruct (_ =? 0)%N; [|apply so_refl]. apply so_bind_same. intros [k|] _; [|apply so_refl].
  destruct (nth_error tags k) as [[b [|]]|]; try apply so_refl. all: destruct (nth_error tags (S k)) as [[c [|]]|] eqn:E; try apply so_refl.
  all: apply so_sub; exact (T _ _ (nth_error_In _ _ E)).
Qed.
Lemma wrap32_mod z w : ((wrap32 z + w) mod 2 ^ 32 = (z + w) mod 2 ^ 32)%Z.
Proof.
  unfold wrap32. pose proof (Z.div_mod (z + 2 ^ 31) (2 ^ 32) ltac:(lia)) as D.
  replace ((z + 2 ^ 31) mod 2 ^ 32 - 2 ^ 31 + w)%Z with (z + w + - ((z + 2 ^ 31) / 2 ^ 32) * 2 ^ 32)%Z by lia.
  apply Z.mod_add. lia.
Qed.
Lemma so_add_b indices a2n caller address size x off : add_b_d indices a2n caller address size x off <~ add_b indices a2n caller address size x off.
Proof.
  unfold add_b_d, add_b, add_i32. destruct (in_i32 _); cbn [bind]; [|apply so_panic, ov_add].
  rewrite wrap32_mod. fold (b_addr address off). cbv zeta. set (addr := b_addr address off).
  destruct (address <=? addr)%N; cbn [andb bind]; [|apply so_refl].
  eapply (so_ret _ (addr <? (address + size) mod 2 ^ 32)%N); [|apply so_refl]. eapply so_ret; [apply so_add_u32 | apply so_refl].
Qed.
Lemma so_ofold {S X} (f g : S -> X -> outcome S) l : (forall s x, In x l -> f s x <~ g s x) -> forall s, ofold f l s <~ ofold g l s.
Proof.
  induction l as [|x l IH]; intros H s; cbn [ofold]; [apply so_refl|]. apply so_bind; [apply H; now left|]. intros s' _. apply IH. intros s2 y I. apply H. now right.
Qed.
Lemma so_exec_code p n e stext text x s : proper_tags (pg_tags p) -> exec_code_d p n e stext text x s <~ exec_code p n e stext text x s.
Proof.
  intros T. unfold exec_code_d, exec_code. destruct (sy_names (snd s)) as [|name ns]; [apply so_refl|]. destruct (sget (n_aliases n) name) as [c|]; [|apply so_refl].
  apply so_bind; [now apply so_code_size|]. intros size _. eapply so_ret; [apply so_sub; apply N.mod_lt; vm_compute; discriminate|].
  apply so_bind_same. intros cd _. apply so_bind; [now apply so_analyze|]. intros a _. destruct (sget (e_indices e) c) as [caller|]; [|apply so_refl].
  destruct x as [g seen]. do 2 (apply so_bind_same; intros ? _). apply so_bind_same. intros x _. apply so_ofold. intros. apply so_add_b.
Qed.
Lemma so_machine p n e : proper_tags (pg_tags p) -> machine_edges_d p n e <~ machine_edges p n e.
Proof.
  intros T. unfold machine_edges_d, machine_edges. destruct (is_thumb _); [|apply so_refl]. destruct (pg_text p) as [[stext text]|]; [|apply so_refl].
  apply so_bind; [apply so_ofold; intros; now apply so_exec_code|]. intros [g sn] _. apply so_refl.
Qed.
