(** Reading of statements, definitions, other items and modules. *)
From Verif Require Import M_base M_nom M_ty M_parse S_ir L_base L_nom L_ir1 L_ir2 L_ir3 L_ir4 L_ir5 L_ir6 L_ir7.

(** * Labels and comments *)
Lemma comment_ok z r : line_tail z -> at_eol r = true -> comment (";"%char :: z ++ r) = Done r tt.
Proof. intros Hz Hr. unfold comment. rewrite char_ok. cbn [pbind]. rewrite nle_ok by assumption. reflexivity. Qed.
Lemma label_name_ok n s r : name_text n s -> palt (drop ident) (palt (drop string_) (drop digit1)) (s ++ ":"%char :: r) = Done (":"%char :: r) tt.
Proof.
  intros [Hq|Hi|Hd].
  - cbn [app]. rewrite <- app_assoc. cbn [app]. apply errs_palt; [eexists; unfold drop, pmap; rewrite ident_err by reflexivity; reflexivity|].
    unfold palt, drop, pmap. rewrite string_ok by exact Hq. reflexivity.
  - unfold palt, drop, pmap. rewrite (ident_ok n _ Hi) by reflexivity. reflexivity.
  - apply errs_palt; [eexists; unfold drop, pmap; rewrite digits_ident by (assumption || reflexivity); reflexivity|].
    apply errs_palt; [|unfold drop, pmap; rewrite digit1_ok by (assumption || reflexivity); reflexivity].
    eexists. unfold drop, pmap. rewrite string_err; [reflexivity|]. apply digit_not; [|exact Hd]. intros c Hc. destruct (Ascii.eqb_spec dquote c) as [<-|_]; [discriminate | reflexivity].
Qed.
Lemma label_stmt s r : label_text s -> at_eol r = true -> stmt_ (s ++ r) = Done r Label.
Proof.
  intros H Hr. unfold stmt_, palt at 1. replace (label (s ++ r)) with (Done r Label : ires stmt); [reflexivity|]. symmetry. unfold label.
  destruct H as [n s Hn|n s sp z Hn Hne Hsp Hz]; rewrite <- !app_assoc.
  - change (lit ":" ++ r) with (":"%char :: r). rewrite (label_name_ok n s r Hn). cbn [pbind]. rewrite char_ok. cbn [pbind]. unfold popt.
    rewrite space1_err; [reflexivity|]. apply eol_not; [reflexivity | reflexivity | exact Hr].
  - change (lit ":" ++ sp ++ lit ";" ++ z ++ r) with (":"%char :: sp ++ ";"%char :: z ++ r). rewrite (label_name_ok n s _ Hn). cbn [pbind]. rewrite char_ok. cbn [pbind]. unfold popt.
    rewrite (spaces_ok sp (";"%char :: z ++ r)) by (assumption || reflexivity). cbn [pbind]. rewrite comment_ok by assumption. reflexivity.
Qed.
Lemma comment_stmt z r : line_tail z -> at_eol r = true -> stmt_ ((lit ";" ++ z) ++ r) = Done r SComment.
Proof.
  intros Hz Hr. change ((lit ";" ++ z) ++ r) with (";"%char :: z ++ r). unfold stmt_. apply errs_palt.
  - eexists. unfold label, palt, drop, pmap. rewrite ident_err by reflexivity. cbn [pbind]. rewrite string_err by reflexivity. cbn [pbind]. rewrite digit1_err by reflexivity. reflexivity.
  - unfold palt, stmt_comment. rewrite comment_ok by assumption. reflexivity.
Qed.

(** * Other statements *)
Lemma blank_head_eol r : at_eol r = true -> blank_head r = true.
Proof.
  destruct r as [|c r]; [reflexivity|]. cbn [at_eol blank_head]. intros H. apply orb_true_iff in H. destruct H as [H|H].
  - apply Ascii.eqb_eq in H. subst c. reflexivity.
  - apply andb_true_iff in H. destruct H as [H _]. apply Ascii.eqb_eq in H. subst c. reflexivity.
Qed.
Lemma not_head_blank k : blank_head k = true -> not_head (fun c => negb (is_blank c)) k = true.
Proof. destruct k as [|c k]; [reflexivity|]. cbn [blank_head not_head]. rewrite s_blank_eq, negb_involutive. tauto. Qed.
Lemma other_word_ok w k : word_text w -> w <> lit "call" -> blank_head k = true -> other_word (w ++ k) = Done k tt.
Proof.
  intros [Hn Hw] Hc Hk. unfold other_word, pmap_res. rewrite take_while1_ok; [| exact Hn | | apply not_head_blank; exact Hk].
  - cbn [pbind]. destruct (str_eqb_spec w (lit "call")) as [->|_]; [contradiction | reflexivity].
  - unfold all in Hw. rewrite <- Hw. apply forallb_ext_in. intros c. rewrite s_blank_eq. reflexivity.
Qed.
Lemma word_ns w k : word_text w -> not_head s_space (w ++ k) = true.
Proof.
  intros [Hn Hw]. destruct w as [|c w]; [contradiction|]. unfold all in Hw. cbn in Hw. apply andb_true_iff in Hw. destruct Hw as [Hc _]. cbn [app not_head].
  apply negb_true_iff in Hc. unfold s_blank in Hc. apply orb_false_iff in Hc. destruct Hc as [-> _]. reflexivity.
Qed.
Definition space_before (w : str) : str := " "%char :: w.
Lemma space_list_cons w ws : space_list (w :: ws) = w ++ concat (map space_before ws).
Proof.
  revert w. induction ws as [|x ws IH]; intros w; [cbn; rewrite app_nil_r; reflexivity|].
  change (space_list (w :: x :: ws)) with (w ++ lit " " ++ space_list (x :: ws)). rewrite IH. reflexivity.
Qed.
Lemma rest_blank ws r : at_eol r = true -> blank_head (concat (map space_before ws) ++ r) = true.
Proof. intros H. destruct ws; [apply blank_head_eol; exact H | reflexivity]. Qed.
Lemma other_loop ws r : Forall word_text ws -> ~ In (lit "call") ws -> at_eol r = true -> forall n, (length (concat (map space_before ws) ++ r) < n)%nat ->
  exists l, sep_loop n space1 other_word (concat (map space_before ws) ++ r) = Done r l.
Proof.
  intros H Hc Hr. induction H as [|w ws Hw H IH]; intros n L; (destruct n as [|n]; [lia|]); cbn [map concat app sep_loop].
  - rewrite space1_err; [eexists; reflexivity|]. apply eol_not; [reflexivity | reflexivity | exact Hr].
  - cbn [map concat] in L. change (space_before w ++ concat (map space_before ws)) with (" "%char :: w ++ concat (map space_before ws)) in *. cbn [app] in *. rewrite <- app_assoc in *.
    rewrite space1_ok by exact (word_ns w _ Hw). cbn [length] in L. rewrite app_length in L.
    destruct (Nat.eqb_spec (length (w ++ concat (map space_before ws) ++ r)) (length (" "%char :: w ++ concat (map space_before ws) ++ r))) as [E|_]; [cbn [length] in E; lia|].
    rewrite other_word_ok; [|exact Hw | intros X; apply Hc; left; exact X | apply rest_blank; exact Hr].
    destruct IH with (n := n) as [l El]; [intros X; apply Hc; right; exact X | lia|]. rewrite El. eexists. reflexivity.
Qed.
Lemma other_ok w ws r : word_text w -> w <> lit "call" -> Forall word_text ws -> ~ In (lit "call") ws -> at_eol r = true ->
  other (space_list (w :: ws) ++ r) = Done r Other.
Proof.
  intros Hw Hc Hws Hcs Hr. unfold other. fold other_word. unfold separated_list1. rewrite space_list_cons, <- app_assoc.
  rewrite other_word_ok by (assumption || (apply rest_blank; exact Hr)). cbn [pbind]. destruct (other_loop ws r Hws Hcs Hr _ (Nat.lt_succ_diag_r _)) as [l El]. rewrite El. reflexivity.
Qed.
(** A keyword followed by a space is the whole first word. *)
Lemma keyword t w k : word_text w -> blank_head k = true -> w <> lit t -> all (fun c => negb (s_blank c)) (lit t) ->
  errs (tag t) (w ++ k) \/ exists c x, tag t (w ++ k) = Done (c :: x) tt /\ s_space c = false.
Proof.
  intros [Hn Hw] Hk Hne Ht. destruct (starts_with (lit t) (w ++ k)) eqn:E; [|left; eexists; apply tag_err; exact E]. right.
  assert (Q : exists x, w = lit t ++ x).
  { clear Hn Hne. unfold all in *. revert w Hw E. generalize (lit t) Ht. clear t Ht. intros l. induction l as [|d l IH]; intros Hl w Hw E; [exists w; reflexivity|].
    cbn in Hl. apply andb_true_iff in Hl. destruct Hl as [Hd Hl]. destruct w as [|c w]; cbn in E.
    - destruct k as [|c k]; [discriminate|]. cbn in Hk. apply andb_true_iff in E. destruct E as [E _]. apply Ascii.eqb_eq in E. subst c. rewrite Hk in Hd. discriminate.
    - apply andb_true_iff in E. destruct E as [E1 E2]. apply Ascii.eqb_eq in E1. subst c. cbn in Hw. apply andb_true_iff in Hw. destruct Hw as [_ Hw].
      destruct (IH Hl w Hw E2) as [x ->]. exists x. reflexivity. }
  destruct Q as [x ->]. destruct x as [|c x]; [rewrite app_nil_r in Hne; contradiction|]. exists c, (x ++ k). rewrite <- app_assoc. cbn [app]. split; [apply tag_ok|].
  unfold all in Hw. rewrite forallb_app in Hw. apply andb_true_iff in Hw. destruct Hw as [_ Hw]. cbn in Hw. apply andb_true_iff in Hw. destruct Hw as [Hc _].
  apply negb_true_iff in Hc. unfold s_blank in Hc. apply orb_false_iff in Hc. apply Hc.
Qed.
Lemma no_tail w k : word_text w -> blank_head k = true -> w <> lit "tail" -> popt tail_sp (w ++ k) = Done (w ++ k) None.
Proof.
  intros Hw Hk Hne. unfold popt, tail_sp. destruct (keyword "tail" w k Hw Hk Hne eq_refl) as [[e ->]|[c [x [-> Hc]]]]; cbn [pbind]; [reflexivity|].
  rewrite space1_err by (cbn [not_head]; rewrite Hc; reflexivity). reflexivity.
Qed.
Lemma no_asm w k : word_text w -> blank_head k = true -> w <> lit "tail" -> w <> lit "call" -> errs asm (w ++ k) /\ errs bitcast_call (w ++ k).
Proof.
  intros Hw Hk Ht Hc. unfold errs, asm, bitcast_call. rewrite (no_tail w k Hw Hk Ht). cbn [pbind].
  destruct (keyword "call" w k Hw Hk Hc eq_refl) as [[e ->]|[c [x [-> Hx]]]]; cbn [pbind]; [split; eexists; reflexivity|].
  rewrite space1_err by (cbn [not_head]; rewrite Hx; reflexivity). split; eexists; reflexivity.
Qed.
Lemma no_direct w k : word_text w -> blank_head k = true -> w <> lit "tail" -> w <> lit "call" -> w <> lit "invoke" -> errs direct_call (w ++ k).
Proof.
  intros Hw Hk Ht Hc Hi. unfold errs, direct_call. rewrite (no_tail w k Hw Hk Ht). cbn [pbind]. unfold palt at 1.
  destruct (keyword "call" w k Hw Hk Hc eq_refl) as [[e ->]|[c [x [-> Hx]]]]; cbn [pbind].
  - destruct (keyword "invoke" w k Hw Hk Hi eq_refl) as [[e' ->]|[c [x [-> Hx]]]]; cbn [pbind]; [eexists; reflexivity|].
    rewrite space1_err by (cbn [not_head]; rewrite Hx; reflexivity). eexists. reflexivity.
  - rewrite space1_err by (cbn [not_head]; rewrite Hx; reflexivity). eexists. reflexivity.
Qed.
(** Tokens that begin at the start of a line stay on the line, if the quotes of the line are balanced. *)
Lemma quote_split (x y a b : str) : ~ In dquote x -> ~ In dquote y -> x ++ dquote :: a = y ++ dquote :: b -> x = y /\ a = b.
Proof.
  revert y. induction x as [|c x IH]; intros [|d y] Hx Hy E; cbn [app] in E.
  - injection E as ->. split; reflexivity.
  - injection E as Ed _. exfalso. apply Hy. left. symmetry. exact Ed.
  - injection E as Ed _. exfalso. apply Hx. left. exact Ed.
  - injection E as -> E. destruct (IH y) with (3 := E) as [-> ->]; [intros X; apply Hx; right; exact X | intros X; apply Hy; right; exact X|]. split; reflexivity.
Qed.
Lemma tokens_line p : tokens p -> forall a q r, balanced a -> at_eol r = true -> p ++ q = a ++ r -> exists b, a = p ++ b.
Proof.
  intros H. induction H as [|c p H1 H2 H3 H IH|x p Hx H IH]; intros a q r Ha Hr E.
  - exists a. reflexivity.
  - destruct Ha as [|d a Hd Ha|y a Hy Ha]; cbn [app] in E.
    + exfalso. subst r. cbn [at_eol] in Hr. change "010"%char with LF in Hr. change "013"%char with CR in Hr. destruct (Ascii.eqb_spec c LF); [contradiction|].
      destruct (Ascii.eqb_spec c CR); [contradiction | discriminate].
    + injection E as -> E. destruct (IH a q r Ha Hr E) as [b ->]. exists b. reflexivity.
    + injection E as -> _. contradiction.
  - destruct Ha as [|d a Hd Ha|y a Hy Ha]; cbn [app] in E.
    + exfalso. subst r. discriminate.
    + injection E as <- _. contradiction.
    + injection E as E. rewrite <- !app_assoc in E. cbn [app] in E. destruct (quote_split _ _ _ _ Hx Hy E) as [-> E2].
      destruct (IH a q r Ha Hr E2) as [b ->]. exists b. cbn [app]. rewrite <- app_assoc. reflexivity.
Qed.
Lemma indirect_inv i r st : indirect_call i = Done r st -> exists p l q, i = p ++ l ++ "("%char :: q /\ tokens p /\ tokens l /\ local_text l.
Proof.
  intros E. unfold indirect_call in E. pinv E. pinv E. pinv E. pinv E. pinv E. pinv E. clear E. unfold delimited in E5. pinv E5. clear E5.
  assert (B : before_callee i = Done i3 tt) by (unfold before_callee; rewrite E0; cbn [pbind]; rewrite E1; cbn [pbind]; rewrite E2; cbn [pbind]; rewrite E3; reflexivity).
  destruct (tokens_before_callee _ _ _ B) as [p [-> Hp]]. destruct (tokens_local _ _ _ E4) as [l [El Hl]]. destruct (local_inv _ _ _ E4) as [l' [El' Hl']].
  rewrite El in El'. apply app_inv_tail in El'. subst l'. apply char_inv in E. exists p, l. eexists. split; [rewrite El, E; reflexivity|]. repeat split; assumption.
Qed.
Lemma no_indirect a r : balanced a -> ~ calls_local a -> at_eol r = true -> errs indirect_call (a ++ r).
Proof.
  intros Ha Hc Hr. pose proof (good_indirect_call (length (a ++ r)) (a ++ r) (le_n _)) as G. destruct (indirect_call (a ++ r)) as [i st|e|e|] eqn:E; try contradiction; [|exists e; exact E].
  exfalso. apply Hc. destruct (indirect_inv _ _ _ E) as [p [l [q [Ei [Hp [Hl Hloc]]]]]].
  destruct (tokens_line (p ++ l ++ ["("%char])) with (a := a) (q := q) (r := r) as [b ->]; try assumption.
  - apply tokens_app; [exact Hp|]. apply tokens_app; [exact Hl|]. apply tokens_char; discriminate.
  - rewrite Ei, <- !app_assoc. reflexivity.
  - exists p, l, b. split; [exact Hloc|]. rewrite <- !app_assoc. reflexivity.
Qed.
Lemma other_stmt s r : other_text s -> at_eol r = true -> stmt_ (s ++ r) = Done r Other.
Proof.
  intros [sp a w ws Hn Hs Ha Hw Hws Hp Ht Hc Hi Hcs Hb Hl] Hr. rewrite <- !app_assoc. 
  assert (Ew : space_list (w :: ws) ++ r = w ++ concat (map space_before ws) ++ r) by (rewrite space_list_cons, <- app_assoc; reflexivity).
  assert (Hk : blank_head (concat (map space_before ws) ++ r) = true) by (apply rest_blank; exact Hr).
  apply stmt_calls; try assumption.
  - rewrite Ew. exact (word_ns w _ Hw).
  - rewrite Ew, not_head_app by apply Hw. exact Hp.
  - destruct (no_asm w _ Hw Hk Ht Hc) as [A B]. pose proof (no_direct w _ Hw Hk Ht Hc Hi) as D. rewrite <- Ew in A, B, D.
    unfold calls. apply errs_palt; [exact A|]. apply errs_palt; [exact B|]. apply errs_palt; [exact D|]. apply errs_palt; [apply no_indirect; assumption|]. apply other_ok; assumption.
Qed.
Theorem stmt_text_ok st s r : stmt_text st s -> at_eol r = true -> stmt_ (s ++ r) = Done r st.
Proof.
  intros [n x H|f x H|n x H|c x H|z H|x H|x H] Hr.
  - apply direct_ok; assumption.
  - apply indirect_ok; assumption.
  - apply bitcast_call_ok; assumption.
  - apply asm_ok; assumption.
  - apply comment_stmt; assumption.
  - apply label_stmt; assumption.
  - apply other_stmt; assumption.
Qed.

(** * Lists of lines *)
Lemma eol_ok e r : eol_text e -> line_ending (e ++ r) = Done r tt.
Proof. intros [|]; reflexivity. Qed.
Lemma eol_at e r : eol_text e -> at_eol (e ++ r) = true.
Proof. intros [|]; reflexivity. Qed.
Lemma eols_at e r : eols_text e -> at_eol (e ++ r) = true.
Proof. intros [x H|x y H _]; [|rewrite <- app_assoc]; apply eol_at; exact H. Qed.
Definition no_eol (r : str) : Prop := not_head s_eol r = true.
Lemma no_eol_errs r : no_eol r -> errs line_ending r.
Proof.
  unfold no_eol. intros H. exists r. destruct r as [|c r]; [reflexivity|]. cbn [not_head] in H. unfold s_eol in H. apply negb_true_iff, orb_false_iff in H. destruct H as [H1 H2].
  cbn [line_ending]. change LF with "010"%char. change CR with "013"%char. rewrite H1, H2. reflexivity.
Qed.
Lemma eols_loop e r : eols_text e -> no_eol r -> forall n, (length (e ++ r) < n)%nat -> exists l, many0_loop n line_ending (e ++ r) = Done r l.
Proof.
  intros H Hr. assert (Z : forall n, (0 < n)%nat -> many0_loop n line_ending r = Done r []).
  { intros [|n] L; [lia|]. cbn [many0_loop]. destruct (no_eol_errs r Hr) as [e' ->]. reflexivity. }
  induction H as [x H|x y H H2 IH]; intros n L; (destruct n as [|n]; [lia|]); cbn [many0_loop].
  - rewrite eol_ok by exact H. rewrite app_length in L. destruct (Nat.eqb_spec (length r) (length (x ++ r))) as [E|_]; [rewrite app_length in E; destruct H; cbn in E; lia|].
    rewrite Z; [eexists; reflexivity|]. destruct H; cbn in L; lia.
  - rewrite <- app_assoc in *. rewrite eol_ok by exact H. rewrite app_length in L. destruct (Nat.eqb_spec (length (y ++ r)) (length (x ++ y ++ r))) as [E|_]; [rewrite (app_length x) in E; destruct H; cbn [length] in E; lia|].
    destruct (IH n) as [l El]; [destruct H; cbn [length] in L; lia|]. rewrite El. eexists. reflexivity.
Qed.
Lemma eols_many1 e r : eols_text e -> no_eol r -> exists l, many1 line_ending (e ++ r) = Done r l.
Proof.
  intros H Hr. destruct (eols_loop e r H Hr _ (Nat.lt_succ_diag_r _)) as [l El]. cbn [many0_loop] in El. unfold many1.
  destruct H as [x H|x y H H2]; rewrite <- ?app_assoc in *; rewrite eol_ok in * by exact H; cbn [pbind].
  - destruct (Nat.eqb_spec (length r) (length (x ++ r))) as [E|_]; [rewrite app_length in E; destruct H; cbn in E; lia|].
    cbn [many0_loop]. destruct (no_eol_errs r Hr) as [e' ->]. eexists. reflexivity.
  - destruct (eols_loop y r H2 Hr _ (Nat.lt_succ_diag_r _)) as [l' El']. rewrite El'. eexists. reflexivity.
Qed.
(** What follows a list of lines: nothing, or line ends and something that is not a further element. *)
Definition list_ends {A} (p : parser A) (tail : str) : Prop :=
  tail = [] \/ exists e t, tail = e ++ t /\ eols_text e /\ no_eol t /\ errs p t.
Lemma list_ends_at {A} (p : parser A) tail : list_ends p tail -> at_eol tail = true.
Proof. intros [->|[e [t [-> [H _]]]]]; [reflexivity | apply eols_at; exact H]. Qed.
Lemma list_ends_stop {A} (p : parser A) tail n : list_ends p tail -> (0 < n)%nat -> sep_loop n (many1 line_ending) p tail = Done tail [].
Proof.
  intros H L. destruct n as [|n]; [lia|]. cbn [sep_loop]. destruct H as [->|[e [t [-> [He [Ht [x Hx]]]]]]]; [reflexivity|].
  destruct (eols_many1 e t He Ht) as [l ->]. destruct (Nat.eqb_spec (length t) (length (e ++ t))) as [E|_].
  - rewrite app_length in E. apply eols_length in He. destruct e; [contradiction | cbn in E; lia].
  - rewrite Hx. reflexivity.
Qed.
Section lines.
Context {A : Type} (p : parser A) (P : A -> str -> Prop).
Hypothesis reads : forall x s r, P x s -> at_eol r = true -> p (s ++ r) = Done r x.
Hypothesis starts : forall x s r, P x s -> no_eol (s ++ r).
Lemma glued_starts l s r : glued P l s -> no_eol (s ++ r).
Proof. intros [x s' H|x s' e l' r' H _ _]; [|rewrite <- app_assoc]; exact (starts x _ _ H). Qed.
Lemma glued_read l s : glued P l s -> forall tail, list_ends p tail ->
  exists x l' i, l = x :: l' /\ p (s ++ tail) = Done i x /\ (length i <= length (s ++ tail))%nat /\
    forall n, (length i < n)%nat -> sep_loop n (many1 line_ending) p i = Done tail l'.
Proof.
  intros G tail Ht. induction G as [x s H|x s e l r H He G IH].
  - exists x, [], tail. split; [reflexivity|]. split; [apply reads; [exact H | exact (list_ends_at p tail Ht)]|]. split; [rewrite app_length; lia|].
    intros n L. apply list_ends_stop; [exact Ht | lia].
  - destruct IH as [y [l' [i [El [Ep [Li IH]]]]]]. exists x, l, (e ++ r ++ tail). split; [reflexivity|]. rewrite <- !app_assoc. split; [apply reads; [exact H | apply eols_at; exact He]|].
    split; [rewrite (app_length s); lia|].
    intros n L. destruct n as [|n]; [lia|]. cbn [sep_loop]. destruct (eols_many1 e (r ++ tail) He (glued_starts l r tail G)) as [u ->].
    pose proof (eols_length e He) as Hne. rewrite app_length in L. assert (0 < length e)%nat by (destruct e; [contradiction | cbn; lia]).
    destruct (Nat.eqb_spec (length (r ++ tail)) (length (e ++ r ++ tail))) as [E|_]; [rewrite (app_length e) in E; lia|].
    rewrite Ep. rewrite IH by lia. cbn [pbind]. rewrite El. reflexivity.
Qed.
Lemma glued_list1 l s tail : glued P l s -> list_ends p tail -> separated_list1 (many1 line_ending) p (s ++ tail) = Done tail l.
Proof.
  intros G Ht. destruct (glued_read l s G tail Ht) as [x [l' [i [-> [E [_ H]]]]]]. unfold separated_list1. rewrite E. cbn [pbind]. rewrite H by lia. reflexivity.
Qed.
Lemma glued_list0 l s tail : glued P l s -> list_ends p tail -> separated_list0 (many1 line_ending) p (s ++ tail) = Done tail l.
Proof.
  intros G Ht. destruct (glued_read l s G tail Ht) as [x [l' [i [-> [E [_ H]]]]]]. unfold separated_list0. rewrite E. cbn [pbind]. rewrite H by lia. reflexivity.
Qed.
End lines.

(** * Definitions *)
Lemma space_no_eol c : s_space c = true -> s_eol c = false.
Proof. destruct c as [[] [] [] [] [] [] [] []]; reflexivity || discriminate. Qed.
Lemma ident_no_eol c : s_ident c = true -> s_eol c = false.
Proof. destruct c as [[] [] [] [] [] [] [] []]; reflexivity || discriminate. Qed.
Lemma first_no_eol (q : ascii -> bool) s r : (forall c, q c = true -> s_eol c = false) -> s <> [] -> all q s -> no_eol (s ++ r).
Proof.
  intros H Hn Ha. destruct s as [|c s]; [contradiction|]. unfold all in Ha. cbn in Ha. apply andb_true_iff in Ha. destruct Ha as [Ha _]. unfold no_eol. cbn [app not_head]. rewrite (H c Ha). reflexivity.
Qed.
Lemma spaces_no_eol s r : s <> [] -> all s_space s -> no_eol (s ++ r).
Proof. apply first_no_eol. exact space_no_eol. Qed.
Lemma name_no_eol n s r : name_text n s -> no_eol (s ++ r).
Proof.
  intros [_|[Hn [Ha _]]|Hd]; [reflexivity | apply (first_no_eol s_ident); [exact ident_no_eol | exact Hn | exact Ha]|].
  apply (first_no_eol s_ident); [exact ident_no_eol | apply Hd | exact (digits_all_ident _ Hd)].
Qed.
Lemma stmt_starts st s r : stmt_text st s -> no_eol (s ++ r).
Proof.
  intros [n x H|f x H|n x H|c x H|z H|x H|x H].
  - destruct H. rewrite <- app_assoc. apply spaces_no_eol; assumption.
  - destruct H. rewrite <- app_assoc. apply spaces_no_eol; assumption.
  - destruct H. rewrite <- app_assoc. apply spaces_no_eol; assumption.
  - destruct H. rewrite <- app_assoc. apply spaces_no_eol; assumption.
  - reflexivity.
  - destruct H as [n x Hn|n x sp z Hn _ _ _]; rewrite <- app_assoc; exact (name_no_eol n x _ Hn).
  - destruct H. rewrite <- app_assoc. apply spaces_no_eol; assumption.
Qed.
Lemma stmt_brace r : errs stmt_ ("}"%char :: r).
Proof.
  unfold stmt_, errs. eexists. apply errs_palt; [exists ("}"%char :: r); unfold label, palt, drop, pmap; rewrite ident_err, string_err, digit1_err by reflexivity; reflexivity|].
  apply errs_palt; [exists ("}"%char :: r); unfold stmt_comment, comment; rewrite char_err by reflexivity; reflexivity|]. rewrite space1_err by reflexivity. reflexivity.
Qed.
Lemma ends_fn w : type_ends (" "%char :: "@"%char :: w) = true.
Proof. apply ends_sp; reflexivity. Qed.
Theorem define_ok d s r : define_text d s -> define_ (s ++ r) = Done r d.
Proof.
  intros [h e1 body e2 Hh He1 Hb He2]. destruct Hh as [l rs nm ps z Hl Hr Hn Hps Hz]. rewrite <- !app_assoc.
  set (rest := e1 ++ body ++ e2 ++ lit "}" ++ r). set (w := "@"%char :: nm ++ "("%char :: comma_list ps ++ ")"%char :: z ++ rest).
  change (lit "define " ++ attrs_before l ++ rs ++ lit " @" ++ nm ++ lit "(" ++ comma_list ps ++ lit ")" ++ z ++ rest)
    with (lit "define" ++ " "%char :: attrs_before l ++ rs ++ " "%char :: w).
  assert (Hw : callee_head w) by (split; reflexivity). unfold define_. rewrite tag_ok. cbn [pbind]. rewrite space1_ok by exact (head_ns l _ rs _ Hl Hr). cbn [pbind].
  destruct (head_attrs l _ rs w Hl Hr) as [u ->]. cbn [pbind]. rewrite (head_ret _ rs w Hr Hw). cbn [pbind]. rewrite space1_ok by apply Hw. cbn [pbind].
  unfold w. rewrite (function_ok _ nm _ Hn) by reflexivity. cbn [pbind]. rewrite char_ok. cbn [pbind]. rewrite (params_ok _ ps (z ++ rest) Hps). cbn [pbind]. rewrite char_ok. cbn [pbind].
  unfold rest. rewrite nle_ok by (assumption || (apply eol_at; assumption)). cbn [pbind]. rewrite eol_ok by exact He1. cbn [pbind].
  rewrite (glued_list1 stmt_ stmt_text stmt_text_ok stmt_starts (d_stmts d) body (e2 ++ lit "}" ++ r) Hb).
  - cbn [pbind]. unfold popt. rewrite eol_ok by exact He2. cbn [pbind]. rewrite tag_ok. destruct d as [n [i o] st]. reflexivity.
  - right. exists e2, (lit "}" ++ r). split; [reflexivity|]. split; [apply eols_one; exact He2|]. split; [reflexivity | exact (stmt_brace r)].
Qed.

(** * Items *)
Lemma palt_pre {A} (p q k : parser A) i r a : palt p q i = Done r a -> palt p (palt q k) i = Done r a.
Proof. unfold palt. destruct (p i); try tauto. intros ->. reflexivity. Qed.
Lemma item_head c : forall x it r,
  (c = ";"%char -> item_comment (c :: x) = Done r it -> item_ (c :: x) = Done r it) /\
  (c = "s"%char -> source_filename (c :: x) = Done r it -> item_ (c :: x) = Done r it) /\
  (c = "t"%char -> target (c :: x) = Done r it -> item_ (c :: x) = Done r it) /\
  (c = "%"%char -> item_type (c :: x) = Done r it -> item_ (c :: x) = Done r it) /\
  (c = "@"%char -> palt item_global item_alias (c :: x) = Done r it -> item_ (c :: x) = Done r it) /\
  (c = "d"%char -> palt (pmap define_ IDefine) declare (c :: x) = Done r it -> item_ (c :: x) = Done r it) /\
  (c = "a"%char -> attributes (c :: x) = Done r it -> item_ (c :: x) = Done r it) /\
  (c = "!"%char -> metadata (c :: x) = Done r it -> item_ (c :: x) = Done r it) /\
  (c = "m"%char -> module_asm (c :: x) = Done r it -> item_ (c :: x) = Done r it).
Proof.
  intros x it r.
  assert (C : forall (A : Type) d (f : str -> unit -> ires A), Ascii.eqb d c = false -> exists e, pbind (char d (c :: x)) f = Error e).
  { intros A d f H. rewrite char_err; [eexists; reflexivity|]. cbn [not_head]. rewrite H. reflexivity. }
  assert (T : forall (A : Type) t (f : str -> unit -> ires A), match lit t with d :: _ => negb (Ascii.eqb d c) | [] => false end = true -> exists e, pbind (tag t (c :: x)) f = Error e).
  { intros A t f H. rewrite tag_err_head by exact H. eexists. reflexivity. }
  assert (K1 : Ascii.eqb ";" c = false -> errs item_comment (c :: x)).
  { intros H. unfold errs, item_comment, comment. rewrite char_err by (cbn [not_head]; rewrite H; reflexivity). eexists. reflexivity. }
  assert (K2 : Ascii.eqb "s" c = false -> errs source_filename (c :: x)) by (intros H; apply T; cbn [lit list_ascii_of_string]; rewrite H; reflexivity).
  assert (K3 : Ascii.eqb "t" c = false -> errs target (c :: x)) by (intros H; apply T; cbn [lit list_ascii_of_string]; rewrite H; reflexivity).
  assert (K4 : Ascii.eqb "%" c = false -> errs item_type (c :: x)).
  { intros H. unfold errs, item_type, alias. rewrite char_err by (cbn [not_head]; rewrite H; reflexivity). eexists. reflexivity. }
  assert (K5 : Ascii.eqb "@" c = false -> errs item_global (c :: x)).
  { intros H. unfold errs, item_global, global. rewrite char_err by (cbn [not_head]; rewrite H; reflexivity). eexists. reflexivity. }
  assert (K6 : Ascii.eqb "@" c = false -> errs item_alias (c :: x)).
  { intros H. unfold errs, item_alias, function. rewrite char_err by (cbn [not_head]; rewrite H; reflexivity). eexists. reflexivity. }
  assert (K7 : Ascii.eqb "d" c = false -> errs (pmap define_ IDefine) (c :: x)).
  { intros H. unfold errs, pmap, define_. rewrite tag_err_head by (cbn [lit list_ascii_of_string]; rewrite H; reflexivity). eexists. reflexivity. }
  assert (K8 : Ascii.eqb "d" c = false -> errs declare (c :: x)) by (intros H; apply T; cbn [lit list_ascii_of_string]; rewrite H; reflexivity).
  assert (K9 : Ascii.eqb "a" c = false -> errs attributes (c :: x)) by (intros H; apply T; cbn [lit list_ascii_of_string]; rewrite H; reflexivity).
  assert (K10 : Ascii.eqb "!" c = false -> errs metadata (c :: x)) by (intros H; apply T; cbn [lit list_ascii_of_string]; rewrite H; reflexivity).
  unfold item_. repeat split; intros -> E;
    repeat (apply errs_palt; [first [apply K1 | apply K2 | apply K3 | apply K4 | apply K5 | apply K6 | apply K7 | apply K8 | apply K9 | apply K10]; reflexivity|]);
    first [exact E | unfold palt at 1; rewrite E; reflexivity | apply palt_pre; exact E].
Qed.
Lemma head_comment x it r : item_comment (";"%char :: x) = Done r it -> item_ (";"%char :: x) = Done r it.
Proof. destruct (item_head ";" x it r) as [H _]. exact (H eq_refl). Qed.
Lemma head_source x it r : source_filename ("s"%char :: x) = Done r it -> item_ ("s"%char :: x) = Done r it.
Proof. destruct (item_head "s" x it r) as [_ [H _]]. exact (H eq_refl). Qed.
Lemma head_target x it r : target ("t"%char :: x) = Done r it -> item_ ("t"%char :: x) = Done r it.
Proof. destruct (item_head "t" x it r) as [_ [_ [H _]]]. exact (H eq_refl). Qed.
Lemma head_type x it r : item_type ("%"%char :: x) = Done r it -> item_ ("%"%char :: x) = Done r it.
Proof. destruct (item_head "%" x it r) as [_ [_ [_ [H _]]]]. exact (H eq_refl). Qed.
Lemma head_at x it r : palt item_global item_alias ("@"%char :: x) = Done r it -> item_ ("@"%char :: x) = Done r it.
Proof. destruct (item_head "@" x it r) as [_ [_ [_ [_ [H _]]]]]. exact (H eq_refl). Qed.
Lemma head_d x it r : palt (pmap define_ IDefine) declare ("d"%char :: x) = Done r it -> item_ ("d"%char :: x) = Done r it.
Proof. destruct (item_head "d" x it r) as [_ [_ [_ [_ [_ [H _]]]]]]. exact (H eq_refl). Qed.
Lemma head_attributes x it r : attributes ("a"%char :: x) = Done r it -> item_ ("a"%char :: x) = Done r it.
Proof. destruct (item_head "a" x it r) as [_ [_ [_ [_ [_ [_ [H _]]]]]]]. exact (H eq_refl). Qed.
Lemma head_metadata x it r : metadata ("!"%char :: x) = Done r it -> item_ ("!"%char :: x) = Done r it.
Proof. destruct (item_head "!" x it r) as [_ [_ [_ [_ [_ [_ [_ [H _]]]]]]]]. exact (H eq_refl). Qed.
Lemma head_asm x it r : module_asm ("m"%char :: x) = Done r it -> item_ ("m"%char :: x) = Done r it.
Proof. destruct (item_head "m" x it r) as [_ [_ [_ [_ [_ [_ [_ [_ H]]]]]]]]. exact (H eq_refl). Qed.
Lemma line_rest_ok {A} (x : A) z r : line_tail z -> at_eol r = true -> line_rest x (z ++ r) = Done r x.
Proof. intros Hz Hr. unfold line_rest. rewrite nle_ok by assumption. reflexivity. Qed.
Lemma before_eq l x : Forall attr_text l -> not_head s_space x = true -> errs attr_sp x ->
  space1 (" "%char :: attrs_before l ++ x) = Done (attrs_before l ++ x) [" "%char] /\ exists u, many0 attr_sp (attrs_before l ++ x) = Done x u.
Proof. intros Hl Hx He. split; [apply space1_ok, before_ns; assumption | apply before_ok; assumption]. Qed.
Lemma kind_ok l k w : Forall attr_text l -> In k (map lit ["alias"; "global"; "constant"]%string) -> not_head s_ident w = true ->
  space1 (" "%char :: attrs_before l ++ k ++ w) = Done (attrs_before l ++ k ++ w) [" "%char] /\ exists u, many0 attr_sp (attrs_before l ++ k ++ w) = Done (k ++ w) u.
Proof.
  intros Hl Hk Hw. apply before_eq; [exact Hl | |].
  - cbn [map In] in Hk. repeat destruct Hk as [<-|Hk]; try contradiction; reflexivity.
  - apply attr_sp_word; [| | |exact Hw]; cbn [map In] in Hk |- *; repeat destruct Hk as [<-|Hk]; try contradiction; try discriminate; try reflexivity; tauto.
Qed.
Lemma item_ok_ it s r : item_text it s -> at_eol r = true -> item_ (s ++ r) = Done r it.
Proof.
  intros H Hr. destruct H as [z Hz|z Hz|z Hz|z Hz|n s z Hn Hz|n s l k z Hn Hl Hk Hz Hzs|n s l t ts t' ts' m ms Hn Hl Ht Hv Ht' Hv' Hm|d s Hd|l o rs n nm z Hl Hrs Hn Hi Hz
    |l sg rs n nm ps z Hl Hrs Hn Hi Hps Hz|z Hz|z Hz|c Hc]; rewrite <- ?app_assoc.
  - change (lit ";" ++ z ++ r) with (";"%char :: z ++ r). apply head_comment. unfold item_comment. rewrite comment_ok by assumption. reflexivity.
  - set (x := lit "source_filename =" ++ z ++ r). assert (E : source_filename x = Done r ISourceFilename).
    { unfold source_filename, x. change (lit "source_filename =" ++ z ++ r) with (lit "source_filename" ++ " "%char :: "="%char :: z ++ r).
      rewrite tag_ok. cbn [pbind]. rewrite space1_ok by reflexivity. cbn [pbind]. rewrite char_ok. cbn [pbind]. apply line_rest_ok; assumption. }
    exact (head_source _ _ _ E).
  - set (x := lit "target datalayout =" ++ z ++ r). assert (E : target x = Done r ITarget).
    { unfold target, x. change (lit "target datalayout =" ++ z ++ r) with (lit "target" ++ " "%char :: lit "datalayout" ++ " "%char :: "="%char :: z ++ r).
      rewrite tag_ok. cbn [pbind]. rewrite space1_ok by reflexivity. cbn [pbind]. unfold palt. rewrite tag_ok. cbn [pbind]. rewrite space1_ok by reflexivity. cbn [pbind].
      rewrite char_ok. cbn [pbind]. apply line_rest_ok; assumption. }
    exact (head_target _ _ _ E).
  - set (x := lit "target triple =" ++ z ++ r). assert (E : target x = Done r ITarget).
    { unfold target, x. change (lit "target triple =" ++ z ++ r) with (lit "target" ++ " "%char :: lit "triple" ++ " "%char :: "="%char :: z ++ r).
      rewrite tag_ok. cbn [pbind]. rewrite space1_ok by reflexivity. cbn [pbind]. unfold palt. rewrite tag_err by reflexivity. rewrite tag_ok. cbn [pbind]. rewrite space1_ok by reflexivity. cbn [pbind].
      rewrite char_ok. cbn [pbind]. apply line_rest_ok; assumption. }
    exact (head_target _ _ _ E).
  - change (lit "%" ++ s ++ lit " =" ++ z ++ r) with ("%"%char :: s ++ " "%char :: "="%char :: z ++ r). apply head_type. unfold item_type.
    rewrite (alias_ok n s _ Hn) by reflexivity. cbn [pbind]. rewrite space1_ok by reflexivity. cbn [pbind]. rewrite char_ok. cbn [pbind]. apply line_rest_ok; assumption.
  - set (w := " "%char :: z ++ r).
    change (lit "@" ++ s ++ lit " = " ++ attrs_before l ++ k ++ lit " " ++ z ++ r) with ("@"%char :: s ++ " "%char :: "="%char :: " "%char :: attrs_before l ++ k ++ w).
    apply head_at. unfold palt. replace (item_global _) with (Done r IGlobal : ires item); [reflexivity|]. symmetry. unfold item_global.
    destruct (global_name_ok n s (" "%char :: "="%char :: " "%char :: attrs_before l ++ k ++ w) Hn eq_refl) as [o [-> _]]. cbn [pbind].
    rewrite space1_ok by reflexivity. cbn [pbind]. rewrite char_ok. cbn [pbind].
    destruct (kind_ok l k w Hl) as [-> [u Eu]]; [destruct Hk as [-> | ->]; cbn; tauto | reflexivity|]. cbn [pbind]. rewrite Eu. cbn [pbind].
    assert (Ek : palt (tag "global") (tag "constant") (k ++ w) = Done w tt).
    { destruct Hk as [-> | ->]; unfold palt; [rewrite tag_ok; reflexivity|]. rewrite tag_err by reflexivity. apply tag_ok. }
    rewrite Ek. cbn [pbind]. unfold w. rewrite space1_ok; [cbn [pbind]; apply line_rest_ok; assumption|].
    destruct z as [|c z]; [|exact Hzs]. apply eol_not; [reflexivity | reflexivity | exact Hr].
  - set (w := " "%char :: ts ++ ","%char :: " "%char :: ts' ++ " "%char :: "@"%char :: ms ++ r).
    change (lit "@" ++ s ++ lit " = " ++ attrs_before l ++ lit "alias " ++ ts ++ lit ", " ++ ts' ++ lit " @" ++ ms ++ r)
      with ("@"%char :: s ++ " "%char :: "="%char :: " "%char :: attrs_before l ++ lit "alias" ++ w).
    apply head_at. destruct (kind_ok l (lit "alias") w Hl) as [Es [u Eu]]; [cbn; tauto | reflexivity|]. apply errs_palt.
    + unfold errs, item_global. destruct (global_name_ok n s (" "%char :: "="%char :: " "%char :: attrs_before l ++ lit "alias" ++ w) Hn eq_refl) as [o [-> _]]. cbn [pbind].
      rewrite space1_ok by reflexivity. cbn [pbind]. rewrite char_ok. cbn [pbind]. rewrite Es. cbn [pbind]. rewrite Eu. cbn [pbind]. unfold palt. rewrite !tag_err by reflexivity. eexists. reflexivity.
    + unfold item_alias. rewrite (function_ok n s _ Hn) by reflexivity. cbn [pbind]. rewrite space1_ok by reflexivity. cbn [pbind]. rewrite char_ok. cbn [pbind]. rewrite Es. cbn [pbind]. rewrite Eu. cbn [pbind].
      rewrite tag_ok. cbn [pbind]. unfold w. rewrite space1_ok by exact (ty_text_ns_app _ _ _ Ht). cbn [pbind]. rewrite (type_text_ok t ts _ Ht Hv) by (apply ends_char; reflexivity). cbn [pbind].
      rewrite space0_none by reflexivity. cbn [pbind]. rewrite char_ok. cbn [pbind]. rewrite space1_ok by exact (ty_text_ns_app _ _ _ Ht'). cbn [pbind].
      rewrite (type_text_ok t' ts' _ Ht' Hv') by apply ends_fn. cbn [pbind]. rewrite space1_ok by reflexivity. cbn [pbind].
      rewrite (function_ok m ms r Hm); [reflexivity|]. apply eol_not; [reflexivity | reflexivity | exact Hr].
  - pose proof (define_ok d s r Hd) as E. assert (X : exists y, s ++ r = "d"%char :: y).
    { destruct Hd as [h e1 body e2 Hh _ _ _]. destruct Hh. eexists. rewrite <- !app_assoc. reflexivity. }
    destruct X as [y Ey]. rewrite Ey in *. apply head_d. unfold palt, pmap. rewrite E. reflexivity.
  - set (w := "@"%char :: nm ++ "("%char :: z ++ r).
    change (lit "declare " ++ attrs_before l ++ rs ++ lit " @" ++ nm ++ lit "(" ++ z ++ r) with ("d"%char :: lit "eclare" ++ " "%char :: attrs_before l ++ rs ++ " "%char :: w).
    apply head_d. apply errs_palt; [eexists; reflexivity|]. unfold declare.
    change ("d"%char :: lit "eclare" ++ " "%char :: attrs_before l ++ rs ++ " "%char :: w) with (lit "declare" ++ " "%char :: attrs_before l ++ rs ++ " "%char :: w).
    assert (Hw : callee_head w) by (split; reflexivity). rewrite tag_ok. cbn [pbind]. rewrite space1_ok by exact (head_ns l _ rs _ Hl Hrs). cbn [pbind].
    destruct (head_attrs l _ rs w Hl Hrs) as [u ->]. cbn [pbind]. rewrite (head_ret _ rs w Hrs Hw). cbn [pbind]. rewrite space1_ok by apply Hw. cbn [pbind].
    unfold w. rewrite (function_ok _ nm _ Hn) by reflexivity. cbn [pbind]. rewrite char_ok. cbn [pbind]. rewrite Hi. apply line_rest_ok; assumption.
  - set (w := "@"%char :: nm ++ "("%char :: comma_list ps ++ ")"%char :: z ++ r).
    change (lit "declare " ++ attrs_before l ++ rs ++ lit " @" ++ nm ++ lit "(" ++ comma_list ps ++ lit ")" ++ z ++ r) with ("d"%char :: lit "eclare" ++ " "%char :: attrs_before l ++ rs ++ " "%char :: w).
    apply head_d. apply errs_palt; [eexists; reflexivity|]. unfold declare.
    change ("d"%char :: lit "eclare" ++ " "%char :: attrs_before l ++ rs ++ " "%char :: w) with (lit "declare" ++ " "%char :: attrs_before l ++ rs ++ " "%char :: w).
    assert (Hw : callee_head w) by (split; reflexivity). rewrite tag_ok. cbn [pbind]. rewrite space1_ok by exact (head_ns l _ rs _ Hl Hrs). cbn [pbind].
    destruct (head_attrs l _ rs w Hl Hrs) as [u ->]. cbn [pbind]. rewrite (head_ret _ rs w Hrs Hw). cbn [pbind]. rewrite space1_ok by apply Hw. cbn [pbind].
    unfold w. rewrite (function_ok _ nm _ Hn) by reflexivity. cbn [pbind]. rewrite char_ok. cbn [pbind]. rewrite Hi.
    rewrite (dparams_ok _ ps (z ++ r) Hps). cbn [pbind]. rewrite char_ok. cbn [pbind]. rewrite line_rest_ok by assumption. destruct sg. reflexivity.
  - set (x := lit "attributes #" ++ z ++ r). assert (E : attributes x = Done r IAttributes).
    { unfold attributes, x. change (lit "attributes #" ++ z ++ r) with (lit "attributes" ++ " "%char :: "#"%char :: z ++ r).
      rewrite tag_ok. cbn [pbind]. rewrite space1_ok by reflexivity. cbn [pbind]. rewrite char_ok. cbn [pbind]. apply line_rest_ok; assumption. }
    exact (head_attributes _ _ _ E).
  - set (x := lit "!" ++ z ++ r). assert (E : metadata x = Done r IMetadata).
    { unfold metadata, x. rewrite tag_ok. cbn [pbind]. apply line_rest_ok; assumption. }
    exact (head_metadata _ _ _ E).
  - set (x := lit "module asm " ++ [dquote] ++ c ++ [dquote] ++ r). assert (E : module_asm x = Done r IModuleAsm).
    { unfold module_asm, x. change (lit "module asm " ++ [dquote] ++ c ++ [dquote] ++ r) with (lit "module" ++ " "%char :: lit "asm" ++ " "%char :: dquote :: c ++ dquote :: r).
      rewrite tag_ok. cbn [pbind]. rewrite space1_ok by reflexivity. cbn [pbind]. rewrite tag_ok. cbn [pbind]. rewrite space1_ok by reflexivity. cbn [pbind]. rewrite string_ok by exact Hc. reflexivity. }
    exact (head_asm _ _ _ E).
Qed.
Lemma item_starts it s r : item_text it s -> no_eol (s ++ r).
Proof.
  intros H. destruct H as [z Hz|z Hz|z Hz|z Hz|n s z Hn Hz|n s l k z Hn Hl Hk Hz Hzs|n s l t ts t' ts' m ms Hn Hl Ht Hv Ht' Hv' Hm|d s Hd|l o rs n nm z Hl Hrs Hn Hi Hz
    |l sg rs n nm ps z Hl Hrs Hn Hi Hps Hz|z Hz|z Hz|c Hc]; try reflexivity.
  destruct Hd as [h e1 body e2 Hh _ _ _]. destruct Hh. reflexivity.
Qed.

(** * Modules *)
Lemma item_eol s : s = [] \/ eols_text s -> errs item_ s.
Proof.
  intros [->|H]; [eexists; reflexivity|]. destruct H as [x [|]|x y [|] _]; eexists; reflexivity.
Qed.
Theorem module_ok its ll : module_text item_text its ll -> parse ll = Parsed its.
Proof.
  intros H. unfold parse. replace (items ll) with (Done [] its : ires (list item)); [reflexivity|]. symmetry. unfold items.
  assert (M : forall e, e = [] \/ eols_text e -> exists u, many0 line_ending e = Done [] u).
  { intros e [->|He]; [eexists; reflexivity|]. pose proof (eols_loop e [] He eq_refl (S (length e))) as X. rewrite app_nil_r in X. apply X. lia. }
  destruct H as [e He|l s e G He].
  - unfold separated_list0. destruct (item_eol e He) as [x ->]. cbn [pbind]. destruct (M e He) as [u ->]. reflexivity.
  - rewrite (glued_list0 item_ item_text item_ok_ item_starts l s e G).
    + cbn [pbind]. destruct (M e He) as [u ->]. reflexivity.
    + destruct He as [->|He]; [left; reflexivity|]. right. exists e, []. rewrite app_nil_r. repeat split; [exact He|]. apply item_eol. left. reflexivity.
Qed.
