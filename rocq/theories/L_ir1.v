(** Texts of the specification are read back by the parsers of the model: lexical level and types. *)
From Verif Require Import M_base M_nom M_ty M_parse S_ir L_base L_nom.

(** * Character classes *)
Lemma s_digit_eq c : s_digit c = is_digit c.
Proof. destruct c as [[] [] [] [] [] [] [] []]; reflexivity. Qed.
Lemma s_letter_eq c : s_letter c = is_alpha c.
Proof. destruct c as [[] [] [] [] [] [] [] []]; reflexivity. Qed.
Lemma s_space_eq c : s_space c = is_space c.
Proof. reflexivity. Qed.
Lemma s_ident_eq c : s_ident c = is_ident c.
Proof. unfold s_ident, is_ident, is_alnum. rewrite s_digit_eq, s_letter_eq. reflexivity. Qed.
Lemma s_eol_eq c : s_eol c = is_eol c.
Proof. unfold s_eol, is_eol, CR, LF. apply orb_comm. Qed.
Lemma s_blank_eq c : s_blank c = is_blank c.
Proof. unfold s_blank, is_blank. rewrite s_eol_eq. reflexivity. Qed.
Lemma digit_ident c : s_digit c = true -> s_ident c = true.
Proof. unfold s_ident. intros ->. rewrite orb_true_r. reflexivity. Qed.
Lemma space_not_ident c : s_space c = true -> s_ident c = false.
Proof. destruct c as [[] [] [] [] [] [] [] []]; reflexivity || discriminate. Qed.

Lemma forallb_ext_in {A} (p q : A -> bool) l : (forall x, p x = q x) -> forallb p l = forallb q l.
Proof. intros H. induction l as [|x l IH]; [reflexivity|]. cbn. rewrite H, IH. reflexivity. Qed.
Lemma not_head_ext p q s : (forall x, p x = q x) -> not_head p s = not_head q s.
Proof. intros H. destruct s; [reflexivity|]. cbn. rewrite H. reflexivity. Qed.
Lemma not_head_weaken p q s : (forall x, q x = true -> p x = true) -> not_head p s = true -> not_head q s = true.
Proof.
  intros H. destruct s as [|c s]; [reflexivity|]. cbn. specialize (H c). destruct (q c); [|reflexivity].
  rewrite H by reflexivity. discriminate.
Qed.
Lemma not_head_app p a b : a <> [] -> not_head p (a ++ b) = not_head p a.
Proof. destruct a; [contradiction | reflexivity]. Qed.

(** * Lexical parsers *)
Lemma span_stop p a r : forallb p a = true -> not_head p r = true -> span p (a ++ r) = (a, r).
Proof.
  intros H N. induction a as [|c a IH]; cbn [app span].
  - destruct r as [|c r]; [reflexivity|]. cbn in N |- *. apply negb_true_iff in N. rewrite N. reflexivity.
  - cbn in H. apply andb_true_iff in H. destruct H as [Hc Ha]. rewrite Hc, (IH Ha). reflexivity.
Qed.
Lemma take_while1_ok p a r : a <> [] -> forallb p a = true -> not_head p r = true -> take_while1 p (a ++ r) = Done r a.
Proof. intros Hn H N. unfold take_while1. rewrite (span_stop _ _ _ H N). destruct a; [contradiction | reflexivity]. Qed.
Lemma take_while1_err p r : not_head p r = true -> take_while1 p r = Error r.
Proof. intros N. unfold take_while1. rewrite (span_stop p [] r eq_refl N : span p r = _). reflexivity. Qed.
Lemma char_ok c r : char c (c :: r) = Done r tt.
Proof. cbn. rewrite Ascii.eqb_refl. reflexivity. Qed.
Lemma char_err c r : not_head (Ascii.eqb c) r = true -> char c r = Error r.
Proof.
  destruct r as [|d r]; [reflexivity|]. cbn. rewrite Ascii.eqb_sym. intros H. apply negb_true_iff in H. rewrite H.
  reflexivity.
Qed.
Lemma strip_prefix_refl p r : strip_prefix p (p ++ r) = Some r.
Proof. apply L_base.strip_prefix_app. reflexivity. Qed.
Lemma tag_ok t r : tag t (lit t ++ r) = Done r tt.
Proof. unfold tag. rewrite strip_prefix_refl. reflexivity. Qed.
Lemma tag_err t i : starts_with (lit t) i = false -> tag t i = Error i.
Proof.
  intros H. unfold tag. destruct (strip_prefix (lit t) i) as [r|] eqn:E; [|reflexivity].
  apply L_base.strip_prefix_app in E. rewrite E, starts_with_refl in H. discriminate.
Qed.
Lemma tag_err_head t c i : match lit t with d :: _ => negb (Ascii.eqb d c) | [] => false end = true -> tag t (c :: i) = Error (c :: i).
Proof.
  intros H. apply tag_err. destruct (lit t) as [|d l]; [discriminate|]. cbn. apply negb_true_iff in H. rewrite H. reflexivity.
Qed.

Lemma spaces_ok sp r : sp <> [] -> all s_space sp -> not_head s_space r = true -> space1 (sp ++ r) = Done r sp.
Proof. apply take_while1_ok. Qed.
Lemma space1_ok r : not_head s_space r = true -> space1 (" "%char :: r) = Done r [" "%char].
Proof. intros H. apply (spaces_ok [" "%char]); [discriminate | reflexivity | exact H]. Qed.
Lemma space1_err r : not_head s_space r = true -> space1 r = Error r.
Proof. apply take_while1_err. Qed.
Lemma space0_ok sp r : all s_space sp -> not_head s_space r = true -> space0 (sp ++ r) = Done r sp.
Proof. intros H N. unfold space0, take_while0. change is_space with s_space. rewrite (span_stop _ _ _ H N). reflexivity. Qed.
Lemma space0_none r : not_head s_space r = true -> space0 r = Done r [].
Proof. exact (space0_ok [] r eq_refl). Qed.
Lemma digit1_ok d r : digits_text d -> not_head s_digit r = true -> digit1 (d ++ r) = Done r d.
Proof.
  intros [Hn H] N. apply take_while1_ok; [exact Hn | | ].
  - rewrite <- H. apply forallb_ext_in. intros x. symmetry. apply s_digit_eq.
  - rewrite <- N. apply not_head_ext. intros x. symmetry. apply s_digit_eq.
Qed.
Lemma digit1_err r : not_head s_digit r = true -> digit1 r = Error r.
Proof. intros N. apply take_while1_err. rewrite <- N. apply not_head_ext. intros x. symmetry. apply s_digit_eq. Qed.
Lemma count_ok n d r : number n d -> not_head s_digit r = true -> count (d ++ r) = Done r n.
Proof.
  intros [Hd [Hv Hl]] N. unfold count, pmap_res. rewrite (digit1_ok d r Hd N). cbn [pbind]. unfold usize_from_str.
  change (digits_val d) with (value_of d). rewrite Hv. change two64 with (2 ^ 64)%N. apply N.ltb_lt in Hl. rewrite Hl. reflexivity.
Qed.
Lemma ident_span s r : s <> [] -> all s_ident s -> not_head s_ident r = true ->
  ident (s ++ r) = if not_head s_digit s then Done r s else Error (s ++ r).
Proof.
  intros Hn Hs N. unfold ident, pmap_res. rewrite take_while1_ok; [|exact Hn | |].
  - cbn [pbind]. destruct s as [|c s]; [contradiction|]. cbn [not_head]. rewrite s_digit_eq. destruct (is_digit c); reflexivity.
  - rewrite <- Hs. apply forallb_ext_in. intros x. symmetry. apply s_ident_eq.
  - rewrite <- N. apply not_head_ext. intros x. symmetry. apply s_ident_eq.
Qed.
Lemma ident_ok s r : ident_text s -> not_head s_ident r = true -> ident (s ++ r) = Done r s.
Proof. intros [Hn [Hs Hd]] N. rewrite ident_span by assumption. rewrite Hd. reflexivity. Qed.
Lemma ident_err r : not_head s_ident r = true -> ident r = Error r.
Proof.
  intros N. unfold ident, pmap_res. rewrite take_while1_err; [reflexivity|]. rewrite <- N. apply not_head_ext. intros x.
  symmetry. apply s_ident_eq.
Qed.
Lemma all_weaken (p q : ascii -> bool) s : (forall c, p c = true -> q c = true) -> all p s -> all q s.
Proof. unfold all. rewrite !forallb_forall. intros H A x Hx. apply H, A, Hx. Qed.
Lemma digits_ident d r : digits_text d -> not_head s_ident r = true -> ident (d ++ r) = Error (d ++ r).
Proof.
  intros [Hn H] N. rewrite ident_span; [|exact Hn | | exact N].
  - destruct d as [|c d]; [contradiction|]. unfold all in H. cbn in H. apply andb_true_iff in H. destruct H as [H _]. cbn. rewrite H.
    reflexivity.
  - eapply all_weaken; [|exact H]. apply digit_ident.
Qed.
Lemma not_digit_head r : not_head s_ident r = true -> not_head s_digit r = true.
Proof. apply not_head_weaken. apply digit_ident. Qed.

Lemma string_ok n r : ~ In dquote n -> string_ (dquote :: n ++ dquote :: r) = Done r n.
Proof.
  intros Hn. unfold string_. rewrite char_ok. cbn [pbind]. unfold take_until.
  rewrite (span_stop (fun x => negb (Ascii.eqb x dquote)) n (dquote :: r)); [|clear r; induction n as [|c n IH]|reflexivity].
  - cbn [pbind]. rewrite char_ok. reflexivity.
  - reflexivity.
  - cbn. rewrite IH by (intros H; apply Hn; right; exact H).
    destruct (Ascii.eqb_spec c dquote) as [->|_]; [exfalso; apply Hn; left; reflexivity | reflexivity].
Qed.
Lemma string_err r : not_head (Ascii.eqb dquote) r = true -> string_ r = Error r.
Proof. intros H. unfold string_. rewrite (char_err _ _ H). reflexivity. Qed.

Lemma ident_head_not (c : ascii) s : all s_ident s -> s_ident c = false -> forall r, not_head (Ascii.eqb c) r = true ->
  not_head (Ascii.eqb c) (s ++ r) = true.
Proof.
  intros H Hc r Hr. destruct s as [|d s]; [exact Hr|]. unfold all in H. cbn in H |- *. apply andb_true_iff in H. destruct H as [H _].
  destruct (Ascii.eqb_spec c d) as [->|_]; [congruence | reflexivity].
Qed.
Lemma digits_all_ident d : digits_text d -> all s_ident d.
Proof. intros [_ H]. eapply all_weaken; [|exact H]. apply digit_ident. Qed.
Lemma name_ok n s r : name_text n s -> not_head s_ident r = true -> name (s ++ r) = Done r n.
Proof.
  intros H N. unfold name, palt. destruct H as [Hq|Hi|Hd].
  - cbn [app]. rewrite <- app_assoc. cbn [app]. rewrite string_ok by exact Hq. reflexivity.
  - rewrite string_err; [rewrite ident_ok by assumption; reflexivity|].
    destruct Hi as [Hne [Ha Hd]]. rewrite not_head_app by exact Hne.
    pose proof (ident_head_not dquote n Ha eq_refl [] eq_refl) as Hh. rewrite app_nil_r in Hh. exact Hh.
  - rewrite string_err, digits_ident, digit1_ok; try assumption; try reflexivity; [apply not_digit_head; exact N|].
    rewrite not_head_app by apply Hd.
    pose proof (ident_head_not dquote n (digits_all_ident _ Hd) eq_refl [] eq_refl) as Hh. rewrite app_nil_r in Hh. exact Hh.
Qed.
Lemma name_text_head n s : name_text n s -> exists c r, s = c :: r /\ s_space c = false.
Proof.
  intros [Hq|[Hn [Ha _]]|Hd].
  - eexists; eexists; split; reflexivity.
  - destruct n as [|c n]; [contradiction|]. exists c, n. split; [reflexivity|]. unfold all in Ha. cbn in Ha.
    apply andb_true_iff in Ha. destruct Ha as [Ha _]. destruct (s_space c) eqn:E; [|reflexivity].
    apply space_not_ident in E. congruence.
  - pose proof (digits_all_ident _ Hd) as Ha. destruct Hd as [Hn _]. destruct n as [|c n]; [contradiction|]. exists c, n.
    split; [reflexivity|]. unfold all in Ha. cbn in Ha.
    apply andb_true_iff in Ha. destruct Ha as [Ha _]. destruct (s_space c) eqn:E; [|reflexivity].
    apply space_not_ident in E. congruence.
Qed.
Lemma function_ok n s r : name_text n s -> not_head s_ident r = true -> function ("@"%char :: s ++ r) = Done r n.
Proof. intros H N. unfold function. rewrite char_ok. cbn [pbind]. apply name_ok; assumption. Qed.
Lemma alias_ok n s r : name_text n s -> not_head s_ident r = true -> alias ("%"%char :: s ++ r) = Done r n.
Proof. intros H N. unfold alias. rewrite char_ok. cbn [pbind]. apply name_ok; assumption. Qed.

Lemma comma_ok r : not_head s_space r = true -> comma (lit ", " ++ r) = Done r [" "%char].
Proof.
  intros H. unfold comma. change (lit ", " ++ r) with (","%char :: " "%char :: r). rewrite char_ok. cbn [pbind].
  apply space1_ok. exact H.
Qed.
Lemma comma_err r : not_head (Ascii.eqb ",") r = true -> comma r = Error r.
Proof. intros H. unfold comma. rewrite (char_err _ _ H). reflexivity. Qed.

(** * Lists *)
Definition comma_before (s : str) : str := lit ", " ++ s.
Lemma sep_loop_text {A} (p : parser A) (ok : str -> Prop) m tail :
  (forall r, ok (lit ", " ++ r)) -> ok tail -> not_head (Ascii.eqb ",") tail = true ->
  forall l ss, Forall2 (fun x s => not_head s_space s = true /\ s <> [] /\
                         forall r, (length (s ++ r) <= m)%nat -> ok r -> p (s ++ r) = Done r x) l ss ->
  forall n i, i = concat (map comma_before ss) ++ tail ->
  (length i < n)%nat -> (length i <= m)%nat -> sep_loop n comma p i = Done tail l.
Proof.
  intros Hc Ht Hn l ss H. induction H as [|x s l ss [Hs [Hne Hp]] H IH]; intros n i -> Ln Lm.
  - cbn [map concat app] in *. destruct n as [|n]; [lia|]. cbn [sep_loop]. rewrite (comma_err _ Hn). reflexivity.
  - cbn [map concat] in *. unfold comma_before at 1. unfold comma_before at 1 in Ln. unfold comma_before at 1 in Lm.
    rewrite <- !app_assoc in *. destruct n as [|n]; [lia|]. cbn [sep_loop].
    rewrite !app_length in Ln, Lm. cbn [length lit list_ascii_of_string] in Ln, Lm.
    rewrite comma_ok by (rewrite not_head_app; assumption).
    destruct (Nat.eqb_spec (length (s ++ concat (map comma_before ss) ++ tail)) (length (lit ", " ++ s ++ concat (map comma_before ss) ++ tail))) as [E|_].
    { rewrite (app_length (lit ", ")) in E. cbn [length lit list_ascii_of_string] in E. lia. }
    rewrite Hp.
    + rewrite (IH n _ eq_refl) by (rewrite app_length; lia). reflexivity.
    + rewrite !app_length. lia.
    + destruct ss as [|s2 ss]; [cbn; exact Ht|]. cbn [map concat]. unfold comma_before at 1. rewrite <- !app_assoc. apply Hc.
Qed.
Lemma comma_list_cons s ss : comma_list (s :: ss) = s ++ concat (map comma_before ss).
Proof.
  revert s. induction ss as [|s2 ss IH]; intros s; [cbn; rewrite app_nil_r; reflexivity|].
  change (comma_list (s :: s2 :: ss)) with (s ++ lit ", " ++ comma_list (s2 :: ss)). rewrite IH. cbn [map concat]. unfold comma_before at 2.
  rewrite <- !app_assoc. reflexivity.
Qed.
Lemma list_text {A} (p : parser A) (ok : str -> Prop) m tail :
  (forall r, ok (lit ", " ++ r)) -> ok tail -> not_head (Ascii.eqb ",") tail = true ->
  forall l ss, (ss = [] -> exists e, p tail = Error e) ->
  Forall2 (fun x s => not_head s_space s = true /\ s <> [] /\
                         forall r, (length (s ++ r) <= m)%nat -> ok r -> p (s ++ r) = Done r x) l ss ->
  (length (comma_list ss ++ tail) <= m)%nat -> separated_list0 comma p (comma_list ss ++ tail) = Done tail l.
Proof.
  intros Hc Ht Hn l ss Hnil H L. destruct H as [|x s l ss [Hs [Hne Hp]] H].
  - destruct (Hnil eq_refl) as [e He]. unfold separated_list0. cbn [comma_list app]. rewrite He. reflexivity.
  - rewrite comma_list_cons, <- app_assoc in *. unfold separated_list0. rewrite Hp; [|exact L|].
    + rewrite (sep_loop_text p ok m tail Hc Ht Hn l ss H _ _ eq_refl); [reflexivity | lia|].
      rewrite app_length in L. lia.
    + destruct ss as [|s2 ss]; [cbn; exact Ht|]. cbn [map concat]. unfold comma_before at 1. rewrite <- !app_assoc. apply Hc.
Qed.

(** * Types *)
Definition type_head : string := "%[<{dfpi.v".
Lemma ty_text_head t s : ty_text t s -> exists c r, s = c :: r /\ one_of type_head c = true.
Proof.
  induction 1; try (eexists; eexists; split; reflexivity).
  - destruct IHty_text as [c [r [-> Hc]]]. exists c. eexists. split; [reflexivity | exact Hc].
  - destruct IHty_text as [c [r [-> Hc]]]. exists c. eexists. split; [reflexivity | exact Hc].
Qed.
(** First characters of types that are not written `void ...`. *)
Lemma ty_text_head' t s : ty_text t s -> starts_void t = false -> exists c r, s = c :: r /\ one_of "%[<{dfpi." c = true.
Proof.
  induction 1; intros Hv; try (eexists; eexists; split; reflexivity).
  - destruct (IHty_text Hv) as [c [r [-> Hc]]]. exists c. eexists. split; [reflexivity | exact Hc].
  - destruct (IHty_text Hv) as [c [r [-> Hc]]]. exists c. eexists. split; [reflexivity | exact Hc].
  - discriminate.
Qed.
Lemma ty_text_ns t s : ty_text t s -> not_head s_space s = true /\ s <> [].
Proof.
  intros H. destruct (ty_text_head _ _ H) as [c [r [-> Hc]]]. split; [|discriminate]. cbn.
  destruct (s_space c) eqn:E; [|reflexivity]. destruct c as [[] [] [] [] [] [] [] []]; discriminate.
Qed.
Lemma ty_text_ns_app t s r : ty_text t s -> not_head s_space (s ++ r) = true.
Proof. intros H. destruct (ty_text_ns _ _ H) as [N E]. rewrite not_head_app; assumption. Qed.

Lemma type_head_err n i : not_head (one_of type_head) i = true -> exists e, type_f (S n) i = Error e.
Proof.
  destruct i as [|c i]; intros H; [eexists; reflexivity|].
  cbn [not_head] in H. apply negb_true_iff in H. unfold one_of, type_head in H. cbn [list_ascii_of_string existsb] in H.
  repeat (apply orb_false_iff in H; destruct H as [? H]).
  eexists. cbn [type_f]. unfold type_body, popt.
  rewrite (tag_err_head "void") by (cbn [lit list_ascii_of_string]; rewrite Ascii.eqb_sym; match goal with E : Ascii.eqb c _ = false |- _ => rewrite E; reflexivity end).
  cbn [pbind]. unfold base, palt, array, packed_struct, struct_, struct_body, type_alias, alias, integer, mvt_vector, delimited, pmap.
  rewrite !char_err by (cbn [not_head]; rewrite Ascii.eqb_sym; match goal with E : Ascii.eqb c _ = false |- _ => rewrite E; reflexivity end).
  cbn [pbind].
  rewrite !tag_err_head by (cbn [lit list_ascii_of_string]; rewrite Ascii.eqb_sym; match goal with E : Ascii.eqb c _ = false |- _ => rewrite E; reflexivity end).
  cbn [pbind]. reflexivity.
Qed.

(** The end of [type_body], after the first alternative. *)
Definition after (rec : parser ty) (i : str) (t : ty) : ires ty :=
  let '(i, t) := stars i t in fn_loop (S (length i)) rec i t.

Lemma fn_loop_fuel m rec : good m 1 rec -> forall n1 n2 i t, (length i < n1)%nat -> (length i < n2)%nat -> (length i <= S m)%nat ->
  fn_loop n1 rec i t = fn_loop n2 rec i t.
Proof.
  intros G. induction n1 as [|n1 IH]; intros n2 i t L1 L2 Lm; [lia|]. destruct n2 as [|n2]; [lia|]. cbn [fn_loop].
  pose proof (good_fn_suffix m rec G i Lm) as Gf. unfold popt. destruct (fn_suffix rec i) as [r ins|e|e|]; try reflexivity.
  cbn [pbind]. destruct (stars r (TFn ins (Some t))) as [r2 t2] eqn:Es.
  destruct (stars_suffix _ _ _ _ Es) as [w2 E2]. destruct Gf as [w [E L]].
  assert (L3 : (length r2 < length i)%nat) by (rewrite E, E2, !app_length; lia). apply IH; lia.
Qed.
Lemma ends_parts r : type_ends r = true ->
  not_head s_ident r = true /\ not_head (Ascii.eqb "*") r = true /\ exists e, fn_suffix (fun _ => NoFuel) r = Error e.
Proof.
  unfold type_ends. intros H. apply andb_true_iff in H. destruct H as [H1 H2]. repeat split.
  - eapply not_head_weaken; [|exact H1]. intros x Hx. cbv beta. rewrite Hx. reflexivity.
  - eapply not_head_weaken; [|exact H1]. intros x Hx. apply Ascii.eqb_eq in Hx. subst x. reflexivity.
  - unfold fn_suffix. apply orb_true_iff in H2. destruct H2 as [H2|H2].
    + rewrite (space1_err _ H2). eexists. reflexivity.
    + unfold space1, take_while1.
      assert (E : span is_space r = (fst (span is_space r), skip_spaces r)).
      { clear. induction r as [|c r IH]; [reflexivity|]. cbn [span skip_spaces]. change (s_space c) with (is_space c). destruct (is_space c); [|reflexivity].
        rewrite IH. destruct (span is_space r). reflexivity. }
      rewrite E. destruct (fst (span is_space r)) as [|c w]; [eexists; reflexivity|]. cbn [pbind]. unfold fn_inputs.
      rewrite (char_err _ _ H2). eexists. reflexivity.
Qed.
(** The alternative does not depend on [rec] when there is no `(`. *)
Lemma after_ends rec r t : type_ends r = true -> after rec r t = Done r t.
Proof.
  intros H. destruct (ends_parts r H) as [_ [Hs [e He]]]. unfold after.
  assert (E : stars r t = (r, t)).
  { destruct r as [|c r]; [reflexivity|]. cbn [stars not_head] in *. rewrite Ascii.eqb_sym in Hs. apply negb_true_iff in Hs. rewrite Hs.
    reflexivity. }
  rewrite E. cbn [fn_loop]. assert (E2 : exists e, fn_suffix rec r = Error e).
  { unfold fn_suffix in He |- *. destruct (space1 r) as [i u|e1|e1|]; cbn [pbind] in *; try discriminate; [|eexists; reflexivity].
    unfold fn_inputs in He |- *. destruct (char "(" i) as [i1 u1|e1|e1|]; cbn [pbind] in *; try discriminate; [|eexists; reflexivity].
    destruct (space0 i1) as [i2 u2|e1|e1|] eqn:E2; cbn [pbind] in *; try discriminate.
    unfold space0, take_while0 in E2. destruct (span is_space i1). discriminate. }
  destruct E2 as [e2 E2]. unfold popt. rewrite E2. reflexivity.
Qed.
Lemma stars_star r t : stars ("*"%char :: r) t = stars r (TPtr t).
Proof. reflexivity. Qed.

Lemma ends_comma r : type_ends (lit ", " ++ r) = true.
Proof. reflexivity. Qed.
Lemma ends_spaces b c r : all s_space b -> one_of "}])>,;=" c = true -> type_ends (b ++ c :: r) = true.
Proof.
  intros Hb Hc. assert (N : forall r', skip_spaces (b ++ c :: r') = c :: r').
  { intros r'. revert Hb. unfold all. induction b as [|x b IH]; intros Hb.
    - cbn [app skip_spaces]. replace (s_space c) with false; [reflexivity|]. revert Hc. clear. destruct c as [[] [] [] [] [] [] [] []]; reflexivity || discriminate.
    - cbn in Hb. apply andb_true_iff in Hb. destruct Hb as [Hx Hb]. cbn [app skip_spaces]. rewrite Hx. apply IH. exact Hb. }
  unfold type_ends. rewrite N. apply andb_true_iff. split.
  - destruct b as [|x b]; cbn [app not_head].
    + revert Hc. clear. destruct c as [[] [] [] [] [] [] [] []]; reflexivity || discriminate.
    + unfold all in Hb. cbn in Hb. apply andb_true_iff in Hb. destruct Hb as [Hx _]. revert Hx. clear. destruct x as [[] [] [] [] [] [] [] []]; reflexivity || discriminate.
  - apply orb_true_iff. right. cbn [not_head]. revert Hc. clear. destruct c as [[] [] [] [] [] [] [] []]; reflexivity || discriminate.
Qed.
Lemma ends_char c r : one_of "}])>,;=" c = true -> type_ends (c :: r) = true.
Proof. intros H. exact (ends_spaces [] c r eq_refl H). Qed.

(** The statement proved by induction on the length of the text. *)
Definition reads (s : str) : Prop := forall t n rest, ty_text t s -> void_ok t = true -> (length (s ++ rest) <= n)%nat ->
  not_head s_ident rest = true ->
  type_f (S n) (s ++ rest) = if starts_void t then (let '(i, t) := stars rest t in Done i t) else after (type_f n) rest t.

Lemma reads_ends s : reads s -> forall t n rest, ty_text t s -> void_ok t = true -> (length (s ++ rest) <= n)%nat ->
  type_ends rest = true -> type_f (S n) (s ++ rest) = Done rest t.
Proof.
  intros R t n rest Ht Hv L He. destruct (ends_parts _ He) as [Hi [Hs _]]. rewrite (R t n rest Ht Hv L Hi).
  destruct (starts_void t); [|apply after_ends; exact He].
  destruct rest as [|c rest]; [reflexivity|]. cbn [stars not_head] in *. rewrite Ascii.eqb_sym in Hs. apply negb_true_iff in Hs. rewrite Hs.
  reflexivity.
Qed.

(** Lists of types, with elements already known to be read. *)
Lemma reads_list n l ss tail : Forall2 ty_text l ss -> forallb void_ok l = true -> Forall reads ss ->
  type_ends tail = true -> not_head (Ascii.eqb ",") tail = true -> not_head (one_of type_head) tail = true ->
  (length (comma_list ss ++ tail) <= n)%nat ->
  separated_list0 comma (type_f (S n)) (comma_list ss ++ tail) = Done tail l.
Proof.
  intros H Hv Hr He Hc Hh L.
  apply (list_text (type_f (S n)) (fun r => type_ends r = true) n tail ends_comma He Hc l ss); [| |exact L].
  - intros _. apply type_head_err. exact Hh.
  - clear L. induction H as [|t s l ss Ht H IH]; [constructor|]. cbn in Hv. apply andb_true_iff in Hv. destruct Hv as [Hv1 Hv2].
    inversion Hr as [|? ? Hr1 Hr2]; subst. constructor; [|apply IH; assumption].
    destruct (ty_text_ns _ _ Ht) as [N E]. split; [exact N|]. split; [exact E|]. intros r L Her. apply (reads_ends _ Hr1 t n r Ht Hv1 L Her).
Qed.
Lemma comma_list_ns l ss r : Forall2 ty_text l ss -> not_head s_space r = true -> not_head s_space (comma_list ss ++ r) = true.
Proof.
  intros H Hr. destruct H as [|t s l ss Ht H]; [exact Hr|]. rewrite comma_list_cons, <- app_assoc. apply (ty_text_ns_app _ _ _ Ht).
Qed.
Lemma comma_list_length s ss : In s ss -> (length s <= length (comma_list ss))%nat.
Proof.
  revert s. induction ss as [|x ss IH]; intros s H; [contradiction|]. destruct H as [->|H].
  - rewrite comma_list_cons, app_length. lia.
  - specialize (IH s H). destruct ss as [|y ss]; [contradiction|].
    change (comma_list (x :: y :: ss)) with (x ++ lit ", " ++ comma_list (y :: ss)). rewrite !app_length. lia.
Qed.

Lemma fn_inputs_ok n l ss rest : Forall2 ty_text l ss -> forallb void_ok l = true -> Forall reads ss ->
  (length (comma_list ss ++ lit ")" ++ rest) <= n)%nat ->
  fn_inputs (type_f (S n)) ("("%char :: comma_list ss ++ ")"%char :: rest) = Done rest l.
Proof.
  intros H Hv Hr L. unfold fn_inputs. rewrite char_ok. cbn [pbind].
  rewrite space0_none by (apply (comma_list_ns l); [exact H | reflexivity]). cbn [pbind].
  rewrite (reads_list n l ss _ H Hv Hr); [|reflexivity|reflexivity|reflexivity|exact L]. cbn [pbind]. rewrite char_ok. reflexivity.
Qed.
Lemma struct_body_ok n l ss a b rest : Forall2 ty_text l ss -> forallb void_ok l = true -> Forall reads ss ->
  all s_space a -> all s_space b ->
  (length (a ++ comma_list ss ++ b ++ lit "}" ++ rest) <= n)%nat ->
  struct_body (type_f (S n)) ("{"%char :: a ++ comma_list ss ++ b ++ "}"%char :: rest) = Done rest l.
Proof.
  intros H Hv Hr Ha Hb L. unfold struct_body. rewrite char_ok. cbn [pbind].
  destruct H as [|t s l ss Ht H].
  - cbn [comma_list app]. rewrite app_assoc. rewrite (space0_ok (a ++ b) ("}"%char :: rest));
      [|unfold all in *; rewrite forallb_app, Ha, Hb; reflexivity|reflexivity]. cbn [pbind].
    assert (E : separated_list0 comma (type_f (S n)) ("}"%char :: rest) = Done ("}"%char :: rest) []).
    { unfold separated_list0. destruct (type_head_err n ("}"%char :: rest) eq_refl) as [e ->]. reflexivity. }
    rewrite E. cbn [pbind]. rewrite space0_none by reflexivity. cbn [pbind]. rewrite char_ok. reflexivity.
  - rewrite space0_ok; [|exact Ha|rewrite comma_list_cons, <- app_assoc; apply (ty_text_ns_app _ _ _ Ht)]. cbn [pbind].
    rewrite (reads_list n (t :: l) (s :: ss)).
    + cbn [pbind]. rewrite (space0_ok b ("}"%char :: rest) Hb eq_refl). cbn [pbind]. rewrite char_ok. reflexivity.
    + constructor; assumption.
    + exact Hv.
    + exact Hr.
    + apply (ends_spaces b "}" rest Hb eq_refl).
    + destruct b as [|c b]; [reflexivity|]. unfold all in Hb. cbn in Hb. apply andb_true_iff in Hb. destruct Hb as [Hb _]. cbn [app not_head].
      revert Hb. clear. destruct c as [[] [] [] [] [] [] [] []]; reflexivity || discriminate.
    + destruct b as [|c b]; [reflexivity|]. unfold all in Hb. cbn in Hb. apply andb_true_iff in Hb. destruct Hb as [Hb _]. cbn [app not_head].
      revert Hb. clear. destruct c as [[] [] [] [] [] [] [] []]; reflexivity || discriminate.
    + rewrite !app_length in *. cbn [length lit list_ascii_of_string] in *. lia.
Qed.
Lemma fn_suffix_ok n l ss rest : Forall2 ty_text l ss -> forallb void_ok l = true -> Forall reads ss ->
  (length (comma_list ss ++ lit ")" ++ rest) <= n)%nat ->
  fn_suffix (type_f (S n)) (lit " (" ++ comma_list ss ++ lit ")" ++ rest) = Done rest l.
Proof.
  intros H Hv Hr L. unfold fn_suffix. cbn [lit list_ascii_of_string app]. rewrite space1_ok by reflexivity.
  cbn [pbind]. apply (fn_inputs_ok n l ss rest H Hv Hr L).
Qed.

Lemma tag_void_err c r : one_of "%[<{dfpi." c = true -> tag "void" (c :: r) = Error (c :: r).
Proof.
  intros H. apply tag_err_head. revert H. clear. destruct c as [[] [] [] [] [] [] [] []]; reflexivity || discriminate.
Qed.
Lemma type_body_base rec c r i t : one_of "%[<{dfpi." c = true -> base rec (c :: r) = Done i t -> type_body rec (c :: r) = after rec i t.
Proof. intros Hc Hb. unfold type_body, popt. rewrite (tag_void_err c r Hc). cbn [pbind]. rewrite Hb. reflexivity. Qed.

Lemma alias_base rec n s r : name_text n s -> not_head s_ident r = true -> base rec ("%"%char :: s ++ r) = Done r (TAlias n).
Proof.
  intros H N. unfold base, palt, array, packed_struct, struct_, struct_body, delimited, pmap, type_alias. cbn [char Ascii.eqb Bool.eqb pbind].
  unfold pmap. rewrite (alias_ok n s r H N). reflexivity.
Qed.
Lemma counted_ok n f k d t s r : number k d -> ty_text t s -> void_ok t = true -> reads s -> type_ends r = true ->
  (length (s ++ r) <= n)%nat -> counted (type_f (S n)) f (d ++ lit " x " ++ s ++ r) = Done r (f k t).
Proof.
  intros Hk Ht Hv Hr He L. unfold counted. rewrite (count_ok k d _ Hk) by reflexivity. cbn [pbind].
  cbn [lit list_ascii_of_string app]. rewrite space1_ok by reflexivity. cbn [pbind]. rewrite char_ok. cbn [pbind].
  rewrite space1_ok by (apply (ty_text_ns_app _ _ _ Ht)). cbn [pbind].
  rewrite (reads_ends _ Hr t n r Ht Hv L He). reflexivity.
Qed.
Lemma number_head k d : number k d -> exists c r, d = c :: r /\ s_digit c = true.
Proof.
  intros [[Hn Ha] _]. destruct d as [|c d]; [contradiction|]. exists c, d. split; [reflexivity|]. unfold all in Ha. cbn in Ha.
  apply andb_true_iff in Ha. apply Ha.
Qed.

Lemma Forall2_text_In l ss s : Forall2 ty_text l ss -> In s ss -> exists t, In t l /\ ty_text t s.
Proof.
  intros H. induction H as [|t x l ss Ht H IH]; intros Hin; [contradiction|]. destruct Hin as [->|Hin].
  - exists t. split; [left; reflexivity | exact Ht].
  - destruct (IH Hin) as [u [Hu Hx]]. exists u. split; [right; exact Hu | exact Hx].
Qed.

Ltac len := cbn [length lit list_ascii_of_string app]; repeat rewrite app_length; cbn [length lit list_ascii_of_string app];
  repeat rewrite app_length; cbn [length]; lia.
Lemma reads_all_aux : forall m s, (length s < m)%nat -> reads s.
Proof.
  induction m as [|m IH]; [lia|]. intros s Lm.
  assert (IHl : forall ss, (length (comma_list ss) < length s)%nat -> Forall reads ss).
  { intros ss L. apply Forall_forall. intros x Hx. apply IH. pose proof (comma_list_length _ _ Hx). lia. }
  intros t n rest Ht Hv L N. destruct Ht as [nm s Hn|k d t s Hk Ht|k d t s Hk Ht| | | | |k d Hk|l ss a b Hl Ha Hb|l ss a b Hl Ha Hb|t s Ht|l ss t s Hl Ht|l ss Hl];
    cbn [starts_void void_ok] in *; repeat rewrite app_length in L; repeat rewrite app_length in Lm; cbn [length lit list_ascii_of_string] in L, Lm;
    (destruct n as [|n]; [exfalso; lia|]); change (type_f (S (S n))) with (type_body (type_f (S n))).
  - (* alias *) apply type_body_base; [reflexivity|]. apply alias_base; assumption.
  - (* array *) rewrite <- !app_assoc. apply type_body_base; [reflexivity|].
    unfold base at 1, palt at 1, array, delimited. cbn [app]. rewrite char_ok. cbn [pbind].
    rewrite (counted_ok n TArray k d t s _ Hk Ht Hv); [|apply IH; lia|apply ends_char; reflexivity|len].
    cbn [pbind lit list_ascii_of_string app]. rewrite char_ok. reflexivity.
  - (* vector *) rewrite <- !app_assoc. apply type_body_base; [reflexivity|].
    destruct (number_head _ _ Hk) as [c [d' [Ed Hc]]].
    assert (E1 : array (type_f (S n)) ("<"%char :: d ++ lit " x " ++ s ++ lit ">" ++ rest) = Error ("<"%char :: d ++ lit " x " ++ s ++ lit ">" ++ rest)) by reflexivity.
    assert (E2 : exists e, packed_struct (type_f (S n)) ("<"%char :: d ++ lit " x " ++ s ++ lit ">" ++ rest) = Error e).
    { unfold packed_struct. rewrite char_ok. cbn [pbind]. unfold struct_body. rewrite char_err; [eexists; reflexivity|]. rewrite Ed. cbn.
      revert Hc. clear. destruct c as [[] [] [] [] [] [] [] []]; reflexivity || discriminate. }
    destruct E2 as [e E2].
    change (lit "<" ++ ?x) with ("<"%char :: x). unfold base, palt at 1. rewrite E1. unfold palt at 1. rewrite E2.
    unfold palt, mvt_vector, delimited. rewrite char_ok. cbn [pbind].
    assert (E3 : forall r, struct_ (type_f (S n)) ("<"%char :: r) = Error ("<"%char :: r)) by reflexivity. rewrite E3.
    assert (E4 : forall r, type_alias ("<"%char :: r) = Error ("<"%char :: r)) by reflexivity. rewrite E4.
    unfold pmap. rewrite !tag_err_head by reflexivity. cbn [pbind].
    assert (E5 : forall r, integer ("<"%char :: r) = Error ("<"%char :: r)) by reflexivity. rewrite E5.
    rewrite (counted_ok n TVec k d t s _ Hk Ht Hv); [|apply IH; lia|apply ends_char; reflexivity|len].
    cbn [pbind lit list_ascii_of_string app]. rewrite char_ok. reflexivity.
  - apply type_body_base; reflexivity.
  - apply type_body_base; reflexivity.
  - apply type_body_base; reflexivity.
  - apply type_body_base; reflexivity.
  - (* integer *) change ((lit "i" ++ d) ++ rest) with ("i"%char :: d ++ rest). apply type_body_base; [reflexivity|].
    assert (E : integer (lit "i" ++ d ++ rest) = Done rest (TInt k)).
    { unfold integer. cbn [lit list_ascii_of_string app]. rewrite char_ok. cbn [pbind]. rewrite (count_ok k d rest Hk) by (apply not_digit_head; exact N). reflexivity. }
    change (lit "i" ++ d ++ rest) with ("i"%char :: d ++ rest) in E. unfold base, palt.
    assert (E1 : forall r, array (type_f (S n)) ("i"%char :: r) = Error ("i"%char :: r)) by reflexivity. rewrite E1.
    assert (E2 : forall r, packed_struct (type_f (S n)) ("i"%char :: r) = Error ("i"%char :: r)) by reflexivity. rewrite E2.
    assert (E3 : forall r, struct_ (type_f (S n)) ("i"%char :: r) = Error ("i"%char :: r)) by reflexivity. rewrite E3.
    assert (E4 : forall r, type_alias ("i"%char :: r) = Error ("i"%char :: r)) by reflexivity. rewrite E4.
    unfold pmap. rewrite !tag_err_head by reflexivity. cbn [pbind]. rewrite E. reflexivity.
  - (* struct *) rewrite <- !app_assoc. apply type_body_base; [reflexivity|]. cbn [lit list_ascii_of_string app].
    assert (E1 : forall r, array (type_f (S n)) ("{"%char :: r) = Error ("{"%char :: r)) by reflexivity.
    assert (E2 : forall r, packed_struct (type_f (S n)) ("{"%char :: r) = Error ("{"%char :: r)) by reflexivity.
    unfold base, palt. rewrite E1, E2. unfold struct_ at 1, pmap at 1.
    rewrite (struct_body_ok n l ss a b rest Hl Hv); [reflexivity|apply IHl; len|exact Ha|exact Hb|].
    len.
  - (* packed *) rewrite <- !app_assoc. apply type_body_base; [reflexivity|]. cbn [lit list_ascii_of_string app].
    assert (E1 : forall r, array (type_f (S n)) ("<"%char :: r) = Error ("<"%char :: r)) by reflexivity.
    unfold base, palt. rewrite E1. unfold packed_struct at 1. rewrite char_ok. cbn [pbind].
    rewrite (struct_body_ok n l ss a b (">"%char :: rest) Hl Hv); [|apply IHl; len|exact Ha|exact Hb|].
    + cbn [pbind lit list_ascii_of_string app]. rewrite char_ok. reflexivity.
    + len.
  - (* pointer *) rewrite <- app_assoc. cbn [app lit list_ascii_of_string].
    assert (R : reads s) by (apply IH; lia).
    specialize (R t (S n) ("*"%char :: rest) Ht Hv). change (type_f (S (S n))) with (type_body (type_f (S n))) in R. rewrite R; [|len|reflexivity].
    destruct (starts_void t); reflexivity.
  - (* function *) apply andb_true_iff in Hv. destruct Hv as [Hv Hs]. apply andb_true_iff in Hv. destruct Hv as [Hv1 Hv2].
    apply negb_true_iff in Hs. rewrite Hs. rewrite <- !app_assoc.
    assert (R : reads s) by (apply IH; lia).
    specialize (R t (S n) (lit " (" ++ comma_list ss ++ lit ")" ++ rest) Ht Hv2). change (type_f (S (S n))) with (type_body (type_f (S n))) in R. rewrite R;
      [|len|reflexivity].
    rewrite Hs. unfold after at 1. change (stars (lit " (" ++ ?x) ?y) with (lit " (" ++ x, y). cbv iota.
    cbn [fn_loop]. unfold popt. rewrite (fn_suffix_ok n l ss rest Hl Hv1); [|apply IHl; len
      |len].
    cbn [pbind]. unfold after. destruct (stars rest (TFn l (Some t))) as [r2 t2] eqn:Es.
    destruct (stars_suffix _ _ _ _ Es) as [w2 E2]. assert (L2 : (length r2 <= length rest)%nat) by (rewrite E2, app_length; lia).
    apply (fn_loop_fuel n (type_f (S n)) (good_type_f n)); len.
  - (* void function *) rewrite <- !app_assoc. unfold type_body, popt. cbn [app lit list_ascii_of_string].
    change ("v"%char :: "o"%char :: "i"%char :: "d"%char :: ?x) with (lit "void" ++ x). rewrite tag_ok. cbn [pbind].
    rewrite space1_ok by reflexivity. cbn [pbind].
    rewrite (fn_inputs_ok n l ss rest Hl Hv); [reflexivity|apply IHl; len|].
    len.
Qed.
Lemma reads_all s : reads s.
Proof. apply (reads_all_aux (S (length s))). lia. Qed.

(** What follows a type may be anything that cannot be a part of it. *)
Theorem type_text_ok t s rest : ty_text t s -> void_ok t = true -> type_ends rest = true -> type_ (s ++ rest) = Done rest t.
Proof. intros Ht Hv He. unfold type_. apply (reads_ends s (reads_all s) t _ rest Ht Hv); [lia | exact He]. Qed.
