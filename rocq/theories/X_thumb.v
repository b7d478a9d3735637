(** Example functions for the Thumb properties. *)
From Verif Require Import M_base M_thumb S_thumb.
Local Open Scope N_scope.

(** push {r7, lr}; bl -568; sub.w sp, sp, #520; vpush {d8}; bx lr; a literal pool that looks like a
    call; b 1030; str r11, [sp, #-4]!; a pool up to the end. *)
Definition ex_fn : list item :=
  [Ins (I16 0xb580); Ins (I32 0xf7ff 0xfee4); Ins (I32 0xf5ad 0x7d02); Ins (I32 0xed2d 0x8b02);
   Ins (I16 0x4770); Pool [0xf7ff; 0xfee4]; Ins (I16 0xe203); Ins (I32 0xf84d 0xbd04); Pool [0xb580; 0xdead]].
Definition ex_fn' : list item :=
  [Ins (I16 0xb580); Ins (I32 0xf7ff 0xfee4); Ins (I32 0xf5ad 0x7d02); Ins (I32 0xed2d 0x8b02);
   Ins (I16 0x4770); Pool [0x0000; 0xbeef]; Ins (I16 0xe203); Ins (I32 0xf84d 0xbd04); Pool [0x4780; 0xf000]].
Definition ex_tags : list (N * tag) := [(256, TThumb); (272, TData); (276, TThumb); (282, TData); (300, TThumb)].

Lemma ex_increasing : increasing ex_tags.
Proof.
  intros i j a b x y Hij Hi Hj.
  destruct i as [|[|[|[|[|i]]]]]; destruct j as [|[|[|[|[|j]]]]]; try lia;
    cbn in Hi, Hj; try (destruct i; discriminate); try (destruct j; discriminate);
    injection Hi as <- <-; injection Hj as <- <-; split; reflexivity.
Qed.
Definition tag_eqb (a b : tag) : bool :=
  match a, b with TData, TData | TThumb, TThumb => true | _, _ => false end.
Lemma ex_not_data a : existsb (fun t => (fst t =? a) && tag_eqb (snd t) TData) ex_tags = false ->
  ~ In (a, TData) ex_tags.
Proof.
  intros H Hin.
  assert (existsb (fun t => (fst t =? a) && tag_eqb (snd t) TData) ex_tags = true); [|congruence].
  apply existsb_exists. exists (a, TData). split; [exact Hin|]. cbn [fst snd]. rewrite N.eqb_refl. reflexivity.
Qed.
Lemma ex_tagged ws ws' : length ws = 2%nat -> length ws' = 2%nat -> tagged ex_tags 256
  [Ins (I16 0xb580); Ins (I32 0xf7ff 0xfee4); Ins (I32 0xf5ad 0x7d02); Ins (I32 0xed2d 0x8b02);
   Ins (I16 0x4770); Pool ws; Ins (I16 0xe203); Ins (I32 0xf84d 0xbd04); Pool ws'].
Proof.
  intros H H'. destruct ws as [|p [|q [|? ?]]]; try discriminate. destruct ws' as [|p' [|q' [|? ?]]]; try discriminate.
  cbn [tagged]. repeat split; try (apply ex_not_data; reflexivity); try discriminate.
  - exists 1%nat. split; [reflexivity|]. cbn. left. reflexivity.
  - exists 3%nat. split; [reflexivity|]. cbn. right. split; [reflexivity|]. discriminate.
Qed.
Lemma ex_ok : function_ok true 256 ex_tags ex_fn.
Proof.
  split; [|split; [exact ex_increasing|split; [apply ex_tagged; reflexivity|split; [discriminate|reflexivity]]]].
  intros x Hx. repeat (destruct Hx as [<- | Hx]; [first [reflexivity | intros w Hw; repeat (destruct Hw as [<- | Hw]; [reflexivity|]); destruct Hw] |]).
  destruct Hx.
Qed.
Lemma ex_ok' : function_ok true 256 ex_tags ex_fn'.
Proof.
  split; [|split; [exact ex_increasing|split; [apply ex_tagged; reflexivity|split; [discriminate|reflexivity]]]].
  intros x Hx. repeat (destruct Hx as [<- | Hx]; [first [reflexivity | intros w Hw; repeat (destruct Hw as [<- | Hw]; [reflexivity|]); destruct Hw] |]).
  destruct Hx.
Qed.

(** Functions without pools and without mapping symbols. *)
Lemma plain_ok v7 l : forallb (fun x => match x with Ins i => instr_ok v7 i | Pool _ => false end) l = true ->
  size l < 2 ^ 30 -> function_ok v7 0 [] l.
Proof.
  intros H Hs. rewrite forallb_forall in H. split; [|split; [|split; [|split; [|exact Hs]]]].
  - intros x Hx. specialize (H x Hx). destruct x; [exact H | discriminate].
  - intros i j a b x y _ Hi. destruct i; discriminate.
  - assert (T : forall l a, (forall x, In x l -> match x with Ins i => instr_ok v7 i | Pool _ => false end = true) ->
                     tagged [] a l).
    { clear. induction l as [|x l IH]; intros a H; [exact I|]. cbn [tagged]. split.
      - destruct x; [intros [] |]. specialize (H (Pool ws) (or_introl eq_refl)). discriminate.
      - apply IH. intros y Hy. apply H. right. exact Hy. }
    apply T. exact H.
  - change (2 ^ 30) with 1073741824 in Hs. change (2 ^ 32) with 4294967296. lia.
Qed.
