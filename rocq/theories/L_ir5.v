(** No call is recorded as something else (C32). *)
From Verif Require Import M_base M_nom M_ty M_parse S_ir L_base L_nom L_ir1 L_ir2 L_ir3 L_ir4.

(** * Words *)
Lemma words_blank c s : s_blank c = true -> words (c :: s) = words s.
Proof. intros H. unfold words. cbn [words_from]. rewrite H. reflexivity. Qed.
Lemma words_blanks a s : forallb s_blank a = true -> words (a ++ s) = words s.
Proof.
  induction a as [|c a IH]; intros H; [reflexivity|]. cbn in H. apply andb_true_iff in H. destruct H as [Hc Ha]. cbn [app]. rewrite words_blank by exact Hc.
  apply IH, Ha.
Qed.
Lemma words_from_run w : forall cur rest, forallb (fun c => negb (s_blank c)) w = true -> rev cur ++ w <> [] ->
  match rest with [] => true | c :: _ => s_blank c end = true -> words_from cur (w ++ rest) = (rev cur ++ w) :: words rest.
Proof.
  induction w as [|c w IH]; intros cur rest Hw Hn Hr.
  - rewrite app_nil_r in *. cbn [app]. destruct cur as [|x cur]; [contradiction|]. destruct rest as [|c rest]; [reflexivity|]. cbn [words_from]. rewrite Hr.
    unfold words at 1. cbn [words_from]. rewrite Hr. reflexivity.
  - cbn in Hw. apply andb_true_iff in Hw. destruct Hw as [Hc Hw]. apply negb_true_iff in Hc. cbn [app words_from]. rewrite Hc.
    rewrite IH; [|exact Hw| |exact Hr].
    + cbn [rev]. rewrite <- app_assoc. reflexivity.
    + cbn [rev]. rewrite <- app_assoc. intros X. apply app_eq_nil in X. destruct X as [_ X]. discriminate.
Qed.
Lemma words_run w rest : w <> [] -> forallb (fun c => negb (s_blank c)) w = true -> match rest with [] => true | c :: _ => s_blank c end = true ->
  words (w ++ rest) = w :: words rest.
Proof. intros Hn Hw Hr. apply (words_from_run w [] rest Hw Hn Hr). Qed.

Definition blank_head (s : str) : bool := match s with [] => true | c :: _ => s_blank c end.
Definition no_call (s : str) : Prop := ~ In (lit "call") (words s).
Lemma space_blank c : s_space c = true -> s_blank c = true.
Proof. unfold s_blank. intros ->. reflexivity. Qed.
Lemma spaces_blank a : forallb is_space a = true -> forallb s_blank a = true.
Proof. rewrite !forallb_forall. intros H x Hx. apply space_blank. exact (H x Hx). Qed.
Lemma blank_head_app a s : a <> [] -> forallb is_space a = true -> blank_head (a ++ s) = true.
Proof. destruct a as [|c a]; [contradiction|]. cbn. intros _ H. apply andb_true_iff in H. destruct H as [H _]. apply space_blank. exact H. Qed.

Definition other_word : parser unit :=
  pmap_res (take_while1 (fun c => negb (is_blank c))) (fun w => if str_eqb w (lit "call") then None else Some tt).
Lemma other_word_inv i r u : other_word i = Done r u -> exists w, i = w ++ r /\ w <> [] /\ forallb (fun c => negb (s_blank c)) w = true /\ w <> lit "call".
Proof.
  unfold other_word, pmap_res. intros E. pinv E. apply take_while1_inv in E0. destruct E0 as [-> [Hn [Ha _]]].
  destruct (str_eqb_spec a (lit "call")) as [|Hc]; [discriminate|]. injection E as <- _. exists a. repeat split; try assumption.
  rewrite <- Ha. apply forallb_ext_in. intros x. rewrite s_blank_eq. reflexivity.
Qed.
Lemma other_loop_inv n : forall i r l, sep_loop n space1 other_word i = Done r l -> exists w, i = w ++ r /\ blank_head w = true /\ no_call w.
Proof.
  induction n as [|n IH]; intros i r l E; [discriminate|]. cbn [sep_loop] in E. destruct (space1 i) as [i1 sp|x|x|] eqn:Es; try discriminate.
  - destruct (length i1 =? length i)%nat; [discriminate|]. destruct (other_word i1) as [i2 u|x|x|] eqn:Ew; try discriminate.
    + pinv E. injection E as <- <-. apply take_while1_inv in Es. destruct Es as [-> [Hn [Ha _]]]. destruct (other_word_inv _ _ _ Ew) as [w [-> [Hw [Hb Hc]]]].
      destruct (IH _ _ _ E0) as [w2 [-> [Hb2 Hc2]]]. exists (sp ++ w ++ w2). rewrite <- !app_assoc. split; [reflexivity|]. split; [apply blank_head_app; assumption|].
      unfold no_call in *. rewrite words_blanks by (apply spaces_blank; exact Ha). rewrite words_run by assumption. intros [X|X]; [congruence | exact (Hc2 X)].
    + injection E as <- <-. exists []. split; [reflexivity|split; [reflexivity | intros []]].
  - injection E as <- <-. exists []. split; [reflexivity|split; [reflexivity | intros []]].
Qed.
Lemma other_inv i r st : other i = Done r st -> st = Other /\ exists w, i = w ++ r /\ no_call w.
Proof.
  unfold other. fold other_word. intros E. pinv E. injection E as <- <-. split; [reflexivity|]. unfold separated_list1 in E0. pinv E0. pinv E0. injection E0 as <- <-.
  destruct (other_word_inv _ _ _ E) as [w [-> [Hw [Hb Hc]]]]. destruct (other_loop_inv _ _ _ _ E1) as [w2 [-> [Hb2 Hc2]]]. exists (w ++ w2). rewrite <- app_assoc.
  split; [reflexivity|]. unfold no_call in *. rewrite words_run by assumption. intros [X|X]; [congruence | exact (Hc2 X)].
Qed.

Lemma palt_inv {A} (p q : parser A) i r a : palt p q i = Done r a -> p i = Done r a \/ q i = Done r a.
Proof. unfold palt. destruct (p i) eqn:E; try discriminate; tauto. Qed.
Lemma asm_is_call : post (fun s => is_call s = true) asm.
Proof. intros i r s E. unfold asm in E. do 10 pinv E. injection E as <- <-. reflexivity. Qed.
Lemma bitcast_is_call : post (fun s => is_call s = true) bitcast_call.
Proof. intros i r s E. unfold bitcast_call in E. do 8 pinv E. injection E as <- <-. reflexivity. Qed.
Lemma direct_is_call : post (fun s => is_call s = true) direct_call.
Proof. intros i r s E. unfold direct_call in E. do 9 pinv E. injection E as <- <-. reflexivity. Qed.
Lemma indirect_is_call : post (fun s => is_call s = true) indirect_call.
Proof. intros i r s E. unfold indirect_call in E. do 7 pinv E. injection E as <- <-. reflexivity. Qed.
Definition calls : parser stmt := palt asm (palt bitcast_call (palt direct_call (palt indirect_call other))).
Lemma calls_inv i r st : calls i = Done r st -> is_call st = true \/ (st = Other /\ exists w, i = w ++ r /\ no_call w).
Proof.
  unfold calls. intros E. apply palt_inv in E. destruct E as [E|E]; [left; exact (asm_is_call _ _ _ E)|].
  apply palt_inv in E. destruct E as [E|E]; [left; exact (bitcast_is_call _ _ _ E)|].
  apply palt_inv in E. destruct E as [E|E]; [left; exact (direct_is_call _ _ _ E)|].
  apply palt_inv in E. destruct E as [E|E]; [left; exact (indirect_is_call _ _ _ E)|]. right. exact (other_inv _ _ _ E).
Qed.
Lemma char_inv c i r u : char c i = Done r u -> i = c :: r.
Proof. unfold char. destruct i as [|x i]; [discriminate|]. destruct (Ascii.eqb_spec x c) as [->|_]; [|discriminate]. intros E. injection E as ->. reflexivity. Qed.
Lemma ident_inv i r a : ident i = Done r a -> i = a ++ r /\ ident_text a.
Proof.
  unfold ident, pmap_res. intros E. pinv E. apply take_while1_inv in E0. destruct E0 as [-> [Hn [Ha _]]].
  destruct (match a0 with c :: _ => is_digit c | [] => false end) eqn:Ed; [discriminate|]. injection E as <- <-. split; [reflexivity|]. split; [exact Hn|split].
  - unfold all. rewrite <- Ha. apply forallb_ext_in. apply s_ident_eq.
  - destruct a0 as [|c a0]; [contradiction|]. cbn [not_head]. rewrite s_digit_eq, Ed. reflexivity.
Qed.
Lemma digit1_inv i r a : digit1 i = Done r a -> i = a ++ r /\ digits_text a.
Proof.
  unfold digit1. intros E. apply take_while1_inv in E. destruct E as [-> [Hn [Ha _]]]. split; [reflexivity|]. split; [exact Hn|]. unfold all. rewrite <- Ha.
  apply forallb_ext_in. apply s_digit_eq.
Qed.
Lemma local_inv i r u : local i = Done r u -> exists s, i = s ++ r /\ local_text s.
Proof.
  unfold local. intros E. pinv E. apply char_inv in E0. subst i. apply palt_inv in E. destruct E as [E|E]; unfold pmap in E; pinv E; injection E as <- _.
  - apply digit1_inv in E0. destruct E0 as [-> H]. exists (lit "%" ++ a0). split; [reflexivity | apply lo_number; exact H].
  - apply ident_inv in E0. destruct E0 as [-> H]. exists (lit "%" ++ a0). split; [reflexivity | apply lo_ident; exact H].
Qed.
Lemma ident_not_blank c : s_ident c = true -> negb (s_blank c) = true.
Proof. destruct c as [[] [] [] [] [] [] [] []]; reflexivity || discriminate. Qed.
Lemma local_not_blank s : local_text s -> s <> [] /\ forallb (fun c => negb (s_blank c)) s = true /\ s <> lit "call".
Proof.
  intros [x [_ [H _]]|x H]; (split; [discriminate|]); (split; [|discriminate]); cbn; apply forallb_forall; intros c Hc; apply ident_not_blank.
  - unfold all in H. rewrite forallb_forall in H. exact (H c Hc).
  - apply digits_all_ident in H. unfold all in H. rewrite forallb_forall in H. exact (H c Hc).
Qed.
Lemma assign_inv i r st : assign i = Done r st -> is_call st = true \/ (st = Other /\ exists w, i = w ++ r /\ no_call w).
Proof.
  unfold assign. fold calls. intros E. pinv E. pinv E. pinv E. pinv E. destruct (calls_inv _ _ _ E) as [H|[-> [w [-> Hw]]]]; [left; exact H|]. right. split; [reflexivity|].
  destruct (local_inv _ _ _ E0) as [s [-> Hs]]. apply take_while1_inv in E1. destruct E1 as [-> [Hn1 [Ha1 _]]]. apply char_inv in E2. subst i1.
  apply take_while1_inv in E3. destruct E3 as [-> [Hn2 [Ha2 _]]]. exists (s ++ a0 ++ ["="%char] ++ a2 ++ w). rewrite <- !app_assoc. split; [reflexivity|].
  destruct (local_not_blank s Hs) as [L1 [L2 L3]]. unfold no_call in *. rewrite words_run; [|exact L1|exact L2|apply blank_head_app; assumption].
  rewrite words_blanks by (apply spaces_blank; exact Ha1). rewrite (words_run ["="%char]); [|discriminate|reflexivity|apply blank_head_app; assumption].
  rewrite words_blanks by (apply spaces_blank; exact Ha2). intros [X|[X|X]]; [congruence | discriminate | exact (Hw X)].
Qed.

Lemma stmt_space_eq c i : s_space c = true -> stmt_ (c :: i) = pbind (space1 (c :: i)) (fun i _ => palt assign calls i).
Proof.
  intros H. unfold stmt_. fold calls. unfold palt at 1, label, palt at 1, palt at 1, drop, pmap.
  rewrite ident_err by (cbn; rewrite (space_not_ident c H); reflexivity).
  rewrite string_err by (cbn; revert H; clear; destruct c as [[] [] [] [] [] [] [] []]; reflexivity || discriminate).
  rewrite digit1_err by (cbn; revert H; clear; destruct c as [[] [] [] [] [] [] [] []]; reflexivity || discriminate).
  cbn [pbind]. unfold palt at 1, stmt_comment, comment. rewrite char_err by (cbn; revert H; clear; destruct c as [[] [] [] [] [] [] [] []]; reflexivity || discriminate).
  cbn [pbind]. reflexivity.
Qed.
Lemma stmt_ok r st s : took stmt_ r st s -> statement_ok st s.
Proof.
  intros H. unfold took in H. split.
  - intros Hs Hc. destruct s as [|c s]; [discriminate|]. cbn in Hs. apply negb_false_iff in Hs. cbn [app] in H. rewrite (stmt_space_eq c (s ++ r) Hs) in H.
    pinv H. apply take_while1_inv in E. destruct E as [E [_ [Ha _]]].
    assert (X : is_call st = true \/ (st = Other /\ exists w, i = w ++ r /\ no_call w)).
    { apply palt_inv in H. destruct H as [H|H]; [exact (assign_inv _ _ _ H) | exact (calls_inv _ _ _ H)]. }
    destruct X as [X|[_ [w [-> Hw]]]]; [exact X|]. exfalso. change (c :: s ++ r) with ((c :: s) ++ r) in E. rewrite app_assoc in E. apply app_inv_tail in E. rewrite E in Hc.
    rewrite words_blanks in Hc by (apply spaces_blank; exact Ha). exact (Hw Hc).
  - destruct (clean_stmt _ _ _ H) as [w [E C]]. apply app_inv_tail in E. subst w. exact C.
Qed.

(** * Definitions *)
Lemma takes_stmt : takes_prefix stmt_. Proof. apply (good_takes 1). exact good_stmt. Qed.
Lemma define_inv i r d : define_ i = Done r d -> exists h e1 body e2, i = (lit "define" ++ h ++ e1 ++ body ++ e2 ++ lit "}") ++ r /\
  eol_text e1 /\ (e2 = [] \/ eol_text e2) /\ glued statement_ok (d_stmts d) body.
Proof.
  intros E. unfold define_ in E. do 14 pinv E. injection E as <- <-.
  assert (T : forall {A} k (p : parser A) (G : forall m, good m k p) i r a, p i = Done r a -> exists w, i = w ++ r) by (intros A k p G; exact (good_takes k p G)).
  unfold tag in E0. destruct (strip_prefix (lit "define") i) as [j|] eqn:Ep; [|discriminate]. injection E0 as ->. apply L_base.strip_prefix_app in Ep.
  destruct (T _ _ _ good_space1 _ _ _ E1) as [w1 W1]. destruct (T _ _ _ good_attrs _ _ _ E2) as [w2 W2]. destruct (T _ _ _ good_ret_ty _ _ _ E3) as [w3 W3].
  destruct (T _ _ _ good_space1 _ _ _ E4) as [w4 W4]. destruct (T _ _ _ good_function _ _ _ E5) as [w5 W5].
  apply char_inv in E6.
  destruct (T _ _ _ (fun m => good_separated_list0 m 1 comma parameter (good_comma0 m) (good_parameter m)) _ _ _ E7) as [w7 W7]. apply char_inv in E8.
  destruct (not_line_ending_inv _ _ _ E9) as [W9 _]. destruct (line_ending_inv _ _ _ E10) as [e1 [W10 He1]].
  destruct (separated_list1_inv stmt_ _ _ _ takes_stmt E11) as [_ [x [l' [s [j [El [W11 [Ht Hc]]]]]]]]. rewrite El.
  destruct (chain_glued stmt_ statement_ok _ (fun r' x s H _ => stmt_ok r' x s H) _ _ Hc x s Ht) as [body [Eb G]].
  unfold tag in E13. destruct (strip_prefix (lit "}") i12) as [k|] eqn:Eq; [|discriminate]. injection E13 as ->. apply L_base.strip_prefix_app in Eq.
  assert (X : exists e2, i11 = e2 ++ i12 /\ (e2 = [] \/ eol_text e2)).
  { unfold popt in E12. destruct (line_ending i11) as [k u|y|y|] eqn:Ek; try discriminate; injection E12 as <- _.
    - destruct (line_ending_inv _ _ _ Ek) as [e2 [X2 H2]]. exists e2. split; [exact X2 | right; exact H2].
    - exists []. split; [reflexivity | left; reflexivity]. }
  destruct X as [e2 [W12 He2]].
  exists (w1 ++ w2 ++ w3 ++ w4 ++ w5 ++ ["("%char] ++ w7 ++ [")"%char] ++ a8), e1, body, e2. split; [|split; [exact He1|split; [exact He2 | exact G]]].
  rewrite Ep, W1, W2, W3, W4, W5, E6, W7, E8, W9, W10, W11, Eb, W12, Eq. rewrite <- !app_assoc. reflexivity.
Qed.
Lemma palt_err {A} (p q : parser A) i e : p i = Error e -> palt p q i = q i.
Proof. unfold palt. intros ->. reflexivity. Qed.
Lemma item_define x : item_ (lit "define" ++ x) = pbind (define_ (lit "define" ++ x)) (fun i d => Done i (IDefine d)) \/ exists e, item_ (lit "define" ++ x) = Error e.
Proof.
  set (i := lit "define" ++ x).
  assert (E : item_ i = palt (pmap define_ IDefine) (palt declare (palt attributes (palt metadata module_asm))) i).
  { unfold item_. do 6 (rewrite (palt_err _ _ i i) by reflexivity). reflexivity. }
  rewrite E. destruct (define_ i) as [j d|e|e|] eqn:Ed.
  2: { right. exists i. rewrite (palt_err _ _ i e) by (unfold pmap; rewrite Ed; reflexivity). do 3 (rewrite (palt_err _ _ i i) by reflexivity). reflexivity. }
  all: left; unfold palt at 1, pmap; rewrite Ed; reflexivity.
Qed.
Lemma item_is_define i r d : item_ i = Done r (IDefine d) -> define_ i = Done r d.
Proof.
  unfold item_. intros E.
  apply palt_inv in E. destruct E as [E|E]; [unfold item_comment in E; pinv E; discriminate|].
  apply palt_inv in E. destruct E as [E|E]; [unfold source_filename, line_rest in E; do 4 pinv E; discriminate|].
  apply palt_inv in E. destruct E as [E|E]; [unfold target, line_rest in E; do 6 pinv E; discriminate|].
  apply palt_inv in E. destruct E as [E|E]; [unfold item_type, line_rest in E; do 4 pinv E; discriminate|].
  apply palt_inv in E. destruct E as [E|E]; [unfold item_global, line_rest in E; do 8 pinv E; discriminate|].
  apply palt_inv in E. destruct E as [E|E]; [unfold item_alias in E; do 14 pinv E; discriminate|].
  apply palt_inv in E. destruct E as [E|E]; [unfold pmap in E; pinv E; injection E as <- <-; reflexivity|]. exfalso.
  apply palt_inv in E. destruct E as [E|E].
  { unfold declare, line_rest in E. do 7 pinv E. destruct (starts_with (lit "llvm.") a4); [pinv E; discriminate | do 3 pinv E; discriminate]. }
  apply palt_inv in E. destruct E as [E|E]; [unfold attributes, line_rest in E; do 4 pinv E; discriminate|].
  apply palt_inv in E. destruct E as [E|E]; [unfold metadata, line_rest in E; do 2 pinv E; discriminate|].
  unfold module_asm in E. do 5 pinv E. discriminate.
Qed.
Lemma item_took_ok it s : reads_item it s -> item_ok it s.
Proof.
  intros [r H]. assert (N : (forall d, it <> IDefine d) -> starts_with (lit "define") s = false).
  { intros Hd. destruct (starts_with (lit "define") s) eqn:E; [|reflexivity]. apply starts_with_app in E. destruct E as [x ->]. rewrite <- app_assoc in H. exfalso.
    destruct (item_define (x ++ r)) as [X|[e X]]; rewrite X in H; [|discriminate]. pinv H. injection H as _ H. exact (Hd _ (eq_sym H)). }
  destruct it; try (apply N; discriminate). apply item_is_define in H. destruct (define_inv _ _ _ H) as [h [e1 [body [e2 [E R]]]]].
  apply app_inv_tail in E. exists h, e1, body, e2. split; [exact E | exact R].
Qed.
Lemma glued_impl {A} (P Q : A -> str -> Prop) l s : (forall x s, P x s -> Q x s) -> glued P l s -> glued Q l s.
Proof. intros H G. induction G; [apply gl_one | apply gl_cons]; auto. Qed.
Lemma module_impl {A} (P Q : A -> str -> Prop) l s : (forall x s, P x s -> Q x s) -> module_text P l s -> module_text Q l s.
Proof. intros H G. destruct G; [apply mo_none | apply mo_some]; try assumption. apply (glued_impl P); assumption. Qed.
Lemma parsed_calls ll its : parse ll = Parsed its -> module_text item_ok its ll.
Proof.
  intros E. destruct (parse_total ll) as [[its' [E' M]]|[its' [pre [suf [E' _]]]]]; rewrite E in E'; [|discriminate]. injection E' as <-.
  apply (module_impl reads_item); [exact item_took_ok | exact M].
Qed.
