(** Reading of attributes, values, arguments and parameters. *)
From Verif Require Import M_base M_nom M_ty M_parse S_ir L_base L_nom L_ir1 L_ir2 L_ir3 L_ir4 L_ir5.

(** * Attributes *)
Definition m_word (c : ascii) : bool := is_alpha c || Ascii.eqb c "_".
Lemma word_char_eq c : word_char c = m_word c.
Proof. unfold word_char, m_word. rewrite s_letter_eq. reflexivity. Qed.
Lemma word_ident c : word_char c = true -> s_ident c = true.
Proof. destruct c as [[] [] [] [] [] [] [] []]; reflexivity || discriminate. Qed.
Lemma word_not_digit c : word_char c = true -> s_digit c = false.
Proof. destruct c as [[] [] [] [] [] [] [] []]; reflexivity || discriminate. Qed.
Lemma word_not_space c : word_char c = true -> s_space c = false.
Proof. destruct c as [[] [] [] [] [] [] [] []]; reflexivity || discriminate. Qed.
Lemma word_neq d c : word_char c = true -> word_char d = false -> Ascii.eqb d c = false.
Proof. intros Hc Hd. destruct (Ascii.eqb_spec d c) as [->|_]; [congruence | reflexivity]. Qed.
Lemma take_word w r : w <> [] -> all word_char w -> not_head s_ident r = true -> take_while1 (fun c => is_alpha c || Ascii.eqb c "_") (w ++ r) = Done r w.
Proof.
  intros Hn Hw Hr. apply take_while1_ok; [exact Hn | |].
  - change (forallb m_word w = true). unfold all in Hw. rewrite <- (forallb_ext_in word_char m_word w word_char_eq). exact Hw.
  - apply (not_head_weaken s_ident); [|exact Hr]. intros c Hc. apply word_ident. rewrite word_char_eq. exact Hc.
Qed.
Lemma take_word_err r : not_head word_char r = true -> take_while1 (fun c => is_alpha c || Ascii.eqb c "_") r = Error r.
Proof. intros H. apply take_while1_err. change (not_head m_word r = true). rewrite <- (not_head_ext word_char m_word r word_char_eq). exact H. Qed.
Lemma word_in_spec w l : word_in w l = true <-> In w (map lit l).
Proof.
  unfold word_in. rewrite existsb_exists, in_map_iff. split; intros [x [H1 H2]]; exists x.
  - split; [symmetry; destruct (str_eqb_spec w (lit x)); [assumption | discriminate] | exact H1].
  - split; [exact H2|]. subst w. destruct (str_eqb_spec (lit x) (lit x)); [reflexivity | contradiction].
Qed.
Lemma word_in_not w l : ~ In w (map lit l) -> word_in w l = false.
Proof. intros H. destruct (word_in w l) eqn:E; [apply word_in_spec in E; contradiction | reflexivity]. Qed.
Ltac each H := cbn [sized_attrs typed_attrs map In] in H; repeat (destruct H as [<-|H]); [.. | contradiction].
Lemma attribute_ok a r : attr_text a -> not_head s_ident r = true -> attribute (a ++ r) = Done r tt.
Proof.
  intros Ha Hr. destruct Ha as [w Hn Hw Hout|w d Hin Hd|w t s Hin Ht Hv|d Hd]; unfold attribute.
  - rewrite take_word by assumption. cbn [pbind].
    rewrite !word_in_not; [reflexivity | ..]; intros X; apply Hout; apply in_or_app.
    all: first [left; exact X | right; apply in_or_app; left; exact X | right; apply in_or_app; right; cbn in X |- *; tauto].
  - rewrite <- !app_assoc. rewrite take_word; [|destruct Hin as [<-|[<-|[<-|[]]]]; discriminate | destruct Hin as [<-|[<-|[<-|[]]]]; reflexivity | reflexivity].
    cbn [pbind]. replace (word_in w _) with true by (symmetry; apply word_in_spec; exact Hin). change (lit "(" ++ d ++ lit ")" ++ r) with ("("%char :: d ++ ")"%char :: r).
    rewrite char_ok. cbn [pbind]. rewrite digit1_ok by (assumption || reflexivity). cbn [pbind]. apply char_ok.
  - rewrite <- !app_assoc. assert (Hq : w <> [] /\ all word_char w /\ word_in w ["dereferenceable"; "dereferenceable_or_null"; "alignstack"]%string = false).
    { cbn [typed_attrs map In] in Hin. repeat destruct Hin as [<-|Hin]; try contradiction; (split; [discriminate | split; reflexivity]). }
    destruct Hq as [Hn [Hw Hq]]. rewrite take_word by (assumption || reflexivity). cbn [pbind]. rewrite Hq.
    replace (word_in w ["sret"; _; _; _; _; _]%string) with true by (symmetry; apply word_in_spec; exact Hin).
    change (lit "(" ++ s ++ lit ")" ++ r) with ("("%char :: s ++ ")"%char :: r). rewrite char_ok. cbn [pbind].
    rewrite (type_text_ok t s _ Ht Hv) by (apply ends_char; reflexivity). cbn [pbind]. apply char_ok.
  - change (lit "align " ++ d) with (lit "align" ++ " "%char :: d). rewrite <- app_assoc. rewrite take_word by (discriminate || reflexivity). cbn [pbind].
    change (word_in (lit "align") ["dereferenceable"; "dereferenceable_or_null"; "alignstack"]%string) with false.
    change (word_in (lit "align") ["sret"; "preallocated"; "inalloca"; "elementtype"; "byval"; "byref"]%string) with false.
    change (word_in (lit "align") ["align"]%string) with true. cbv iota. cbn [app].
    destruct Hd as [Hn Hd]. rewrite space1_ok.
    + cbn [pbind]. rewrite digit1_ok; [reflexivity | split; assumption | apply not_digit_head; exact Hr].
    + destruct d as [|c d]; [contradiction|]. cbn in Hd |- *. apply andb_true_iff in Hd. destruct Hd as [Hd _]. apply negb_true_iff.
      destruct (s_space c) eqn:E; [|reflexivity]. apply space_not_ident in E. apply digit_ident in Hd. congruence.
Qed.
(** The first characters of an attribute are a word that is not a type, followed by something else. *)
Lemma attr_word a : attr_text a -> exists w r, a = w ++ r /\ w <> [] /\ all word_char w /\ not_head s_ident r = true /\
  ~ In w (map lit ["double"; "float"; "void"; "ptr"]%string).
Proof.
  intros Ha. destruct Ha as [w Hn Hw Hout|w d Hin Hd|w t s Hin Ht Hv|d Hd].
  - exists w, []. rewrite app_nil_r. repeat split; try assumption. intros X. apply Hout. apply in_or_app. right. apply in_or_app. right. cbn in X |- *. tauto.
  - exists w. eexists. split; [reflexivity|]. cbn [sized_attrs map In] in Hin. repeat destruct Hin as [<-|Hin]; try contradiction; repeat split; try discriminate;
      cbn [map In]; intros X; repeat destruct X as [X|X]; discriminate || contradiction.
  - exists w. eexists. split; [reflexivity|]. cbn [typed_attrs map In] in Hin. repeat destruct Hin as [<-|Hin]; try contradiction; repeat split; try discriminate;
      cbn [map In]; intros X; repeat destruct X as [X|X]; discriminate || contradiction.
  - exists (lit "align"), (lit " " ++ d). split; [reflexivity|]. repeat split; try discriminate. cbn [map In]; intros X; repeat destruct X as [X|X]; discriminate || contradiction.
Qed.
Lemma attr_head a : attr_text a -> exists c r, a = c :: r /\ word_char c = true.
Proof.
  intros H. destruct (attr_word a H) as [w [r [-> [Hn [Hw _]]]]]. destruct w as [|c w]; [contradiction|]. exists c, (w ++ r). split; [reflexivity|].
  unfold all in Hw. cbn in Hw. apply andb_true_iff in Hw. apply Hw.
Qed.
Lemma attr_ns a r : attr_text a -> not_head s_space (a ++ r) = true.
Proof. intros H. destruct (attr_head a H) as [c [x [-> Hc]]]. cbn. rewrite (word_not_space c Hc). reflexivity. Qed.
Lemma attr_sp_ok a r : attr_text a -> not_head s_space r = true -> attr_sp (a ++ lit " " ++ r) = Done r [" "%char].
Proof. intros Ha Hr. unfold attr_sp. rewrite attribute_ok by (assumption || reflexivity). cbn [pbind]. apply space1_ok. exact Hr. Qed.
Lemma before_ns l x : Forall attr_text l -> not_head s_space x = true -> not_head s_space (attrs_before l ++ x) = true.
Proof. intros H Hx. destruct H as [|a l Ha H]; [exact Hx|]. cbn [attrs_before]. rewrite <- app_assoc. apply attr_ns. exact Ha. Qed.
Definition errs {A} (p : parser A) (i : str) : Prop := exists e, p i = Error e.
Lemma many0_before l x : Forall attr_text l -> not_head s_space x = true -> errs attr_sp x ->
  forall n, (length (attrs_before l ++ x) < n)%nat -> exists u, many0_loop n attr_sp (attrs_before l ++ x) = Done x u.
Proof.
  intros H Hx [e He]. induction H as [|a l Ha H IH]; intros n L.
  - destruct n as [|n]; [lia|]. cbn [attrs_before app many0_loop]. rewrite He. eexists. reflexivity.
  - destruct n as [|n]; [lia|]. cbn [attrs_before] in *. rewrite <- !app_assoc in *. cbn [many0_loop].
    rewrite attr_sp_ok by (assumption || (apply before_ns; assumption)).
    repeat rewrite app_length in L. cbn [length lit list_ascii_of_string] in L.
    destruct (Nat.eqb_spec (length (attrs_before l ++ x)) (length (a ++ lit " " ++ attrs_before l ++ x))) as [E|_].
    { repeat rewrite app_length in E. cbn [length lit list_ascii_of_string] in E. lia. }
    destruct (IH n) as [u Hu]; [rewrite app_length; lia|]. rewrite Hu. eexists. reflexivity.
Qed.
Lemma before_ok l x : Forall attr_text l -> not_head s_space x = true -> errs attr_sp x -> exists u, many0 attr_sp (attrs_before l ++ x) = Done x u.
Proof. intros H Hx He. apply many0_before; [assumption .. | lia]. Qed.
Lemma attr_sp_head r : not_head word_char r = true -> errs attr_sp r.
Proof. intros H. exists r. unfold attr_sp, attribute. rewrite take_word_err by exact H. reflexivity. Qed.
Lemma attr_sp_word w r : w <> [] -> all word_char w -> In w (map lit ["double"; "float"; "void"; "ptr"; "bitcast"; "getelementptr"; "alias"; "global"; "constant"]%string) ->
  not_head s_ident r = true -> errs attr_sp (w ++ r).
Proof.
  intros Hn Hw Hin Hr. exists r. unfold attr_sp, attribute. rewrite take_word by assumption. cbn [pbind].
  cbn [map In] in Hin. repeat destruct Hin as [<-|Hin]; try contradiction; reflexivity.
Qed.
(** A type is not an attribute. *)
Lemma attr_sp_ty t s : ty_text t s -> forall r, not_head s_ident r = true -> errs attr_sp (s ++ r).
Proof.
  induction 1; intros r Hr; try (apply attr_sp_head; reflexivity).
  - apply attr_sp_word; try (discriminate || reflexivity || assumption). cbn; tauto.
  - apply attr_sp_word; try (discriminate || reflexivity || assumption). cbn; tauto.
  - apply attr_sp_word; try (discriminate || reflexivity || assumption). cbn; tauto.
  - rewrite <- app_assoc. exists (d ++ r). unfold attr_sp, attribute. destruct (number_head _ _ H) as [c [d' [-> Hc]]].
    assert (Ew : take_while1 (fun c => is_alpha c || Ascii.eqb c "_") (lit "i" ++ (c :: d') ++ r) = Done ((c :: d') ++ r) (lit "i")).
    { apply take_while1_ok; [discriminate | reflexivity|]. cbn [app not_head]. fold (m_word c). rewrite <- word_char_eq. destruct (word_char c) eqn:E; [|reflexivity].
      apply word_not_digit in E. congruence. }
    rewrite Ew. cbn [pbind]. change (word_in (lit "i") _) with false. cbv iota. cbn [pbind]. rewrite space1_err; [reflexivity|]. cbn.
    destruct (s_space c) eqn:E; [|reflexivity]. apply space_not_ident in E. apply digit_ident in Hc. congruence.
  - rewrite <- app_assoc. apply IHty_text. reflexivity.
  - rewrite <- app_assoc. apply IHty_text. reflexivity.
  - change (lit "void (" ++ comma_list ss ++ lit ")") with (lit "void" ++ (lit " (" ++ comma_list ss ++ lit ")")). rewrite <- app_assoc.
    apply attr_sp_word; try (discriminate || reflexivity || assumption). cbn; tauto.
Qed.
Lemma attr_sp_ret o s r : ret_text o s -> not_head s_ident r = true -> errs attr_sp (s ++ r).
Proof.
  intros [|t x Ht _] Hr; [|exact (attr_sp_ty t x Ht r Hr)]. apply attr_sp_word; try (discriminate || reflexivity || assumption). cbn; tauto.
Qed.

(** * Return types *)
Lemma ret_ns o s r : ret_text o s -> not_head s_space (s ++ r) = true.
Proof. intros [|t x Ht _]; [reflexivity | exact (ty_text_ns_app t x r Ht)]. Qed.
Lemma ends_not_paren r : type_ends r = true -> forall i u, space1 r = Done i u -> not_head (Ascii.eqb "(") i = true.
Proof.
  intros He i u E. unfold space1 in E. apply take_while1_inv in E. destruct E as [-> [Hn [Ha Hs]]]. unfold type_ends in He. apply andb_true_iff in He. destruct He as [_ He].
  apply orb_true_iff in He. destruct He as [He|He].
  - destruct u as [|c u]; [contradiction|]. cbn in Ha, He. apply andb_true_iff in Ha. destruct Ha as [Ha _]. change (s_space c) with (is_space c) in He. rewrite Ha in He. discriminate.
  - replace (skip_spaces (u ++ i)) with i in He; [exact He|]. clear Hn He. induction u as [|c u IH]; cbn [app].
    + destruct i as [|c i]; [reflexivity|]. cbn in Hs |- *. change (s_space c) with (is_space c). apply negb_true_iff in Hs. rewrite Hs. reflexivity.
    + cbn in Ha. apply andb_true_iff in Ha. destruct Ha as [Hc Ha]. cbn [skip_spaces]. change (s_space c) with (is_space c). rewrite Hc. apply IH. exact Ha.
Qed.
Lemma void_err r : type_ends r = true -> errs type_ (lit "void" ++ r).
Proof.
  intros Hr. unfold errs, type_. cbn [type_f]. unfold type_body, popt. rewrite tag_ok. cbn [pbind]. unfold space1, take_while1 in *.
  destruct (space1 r) as [i u|e|e|] eqn:E.
  - exists i. unfold space1, take_while1 in E. rewrite E. cbn [pbind]. unfold fn_inputs. rewrite char_err; [reflexivity | exact (ends_not_paren r Hr i u E)].
  - exists e. unfold space1, take_while1 in E. rewrite E. reflexivity.
  - unfold space1, take_while1 in E. destruct (span is_space r) as [[|] ?]; discriminate.
  - unfold space1, take_while1 in E. destruct (span is_space r) as [[|] ?]; discriminate.
Qed.
Lemma ret_ok o s r : ret_text o s -> type_ends r = true -> ret_ty (s ++ r) = Done r o.
Proof.
  intros [|t x Ht Hv] Hr; unfold ret_ty.
  - destruct (void_err r Hr) as [e He]. rewrite (palt_err _ _ _ e); [unfold pmap; rewrite tag_ok; reflexivity|]. unfold pmap. rewrite He. reflexivity.
  - unfold palt, pmap. rewrite (type_text_ok t x r Ht Hv Hr). reflexivity.
Qed.
(** A word that is not a type is not read as one up to a space. *)
Lemma base_letter rec c r : word_char c = true -> not_head (Ascii.eqb c) (lit "dfpi") = true \/ True ->
  base rec (c :: r) = palt (pmap (tag "double") (fun _ => TDouble)) (palt (pmap (tag "float") (fun _ => TFloat))
      (palt (pmap (tag "ptr") (fun _ => TOpaque)) (palt integer (palt (pmap (tag "...") (fun _ => TVarargs)) (mvt_vector rec))))) (c :: r).
Proof.
  intros Hc _. unfold base.
  assert (N : forall d, word_char d = false -> char d (c :: r) = Error (c :: r)).
  { intros d Hd. apply char_err. cbn. destruct (Ascii.eqb_spec d c) as [->|_]; [congruence | reflexivity]. }
  rewrite (palt_err _ _ _ (c :: r)); [|unfold array, delimited; rewrite N by reflexivity; reflexivity].
  rewrite (palt_err _ _ _ (c :: r)); [|unfold packed_struct; rewrite N by reflexivity; reflexivity].
  rewrite (palt_err _ _ _ (c :: r)); [|unfold struct_, pmap, struct_body; rewrite N by reflexivity; reflexivity].
  rewrite (palt_err _ _ _ (c :: r)); [|unfold type_alias, pmap, alias; rewrite N by reflexivity; reflexivity].
  reflexivity.
Qed.
Definition no_type (i : str) : Prop := errs ret_ty i \/ exists r o, ret_ty i = Done r o /\ not_head s_space r = true.
Lemma after_word rec c r t : word_char c = true -> after rec (c :: r) t = Done (c :: r) t.
Proof.
  intros Hc. unfold after. cbn [stars]. destruct (Ascii.eqb_spec c "*") as [->|_]; [discriminate|]. cbn [fn_loop length]. unfold popt, fn_suffix.
  rewrite space1_err; [reflexivity|]. cbn. rewrite (word_not_space c Hc). reflexivity.
Qed.
Lemma ret_word w r : w <> [] -> all word_char w -> ~ In w (map lit ["double"; "float"; "void"; "ptr"]%string) -> not_head s_ident r = true -> no_type (w ++ r).
Proof.
  intros Hn Hw Hout Hr.
  assert (P : forall t x, w = lit t ++ x -> In t ["double"; "float"; "void"; "ptr"]%string -> exists c x', x = c :: x' /\ word_char c = true).
  { intros t x -> Hin. destruct x as [|c x].
    - exfalso. apply Hout. rewrite app_nil_r. apply in_map. exact Hin.
    - exists c, x. split; [reflexivity|]. unfold all in Hw. rewrite forallb_app in Hw. apply andb_true_iff in Hw. destruct Hw as [_ Hw]. cbn in Hw. apply andb_true_iff in Hw. apply Hw. }
  assert (S : forall t, In t ["double"; "float"; "void"; "ptr"]%string -> (exists c x, w = lit t ++ c :: x /\ word_char c = true) \/ starts_with (lit t) (w ++ r) = false).
  { intros t Ht. destruct (starts_with (lit t) (w ++ r)) eqn:E; [|right; reflexivity]. left.
    assert (Q : starts_with (lit t) w = true).
    { assert (Ht' : all word_char (lit t)) by (cbn [In] in Ht; repeat destruct Ht as [<-|Ht]; try contradiction; reflexivity).
      clear P Hn Hout Ht Hw. unfold all in Ht'. revert E Ht'. generalize (lit t). clear t. intros l. revert w. induction l as [|d l IH]; intros w E Hl; [reflexivity|].
      cbn in Hl. apply andb_true_iff in Hl. destruct Hl as [Hd Hl].
      destruct w as [|c w]; cbn in E.
      - destruct r as [|c r]; [discriminate|]. cbn in Hr. apply andb_true_iff in E. destruct E as [E _]. apply Ascii.eqb_eq in E. subst c. apply word_ident in Hd. rewrite Hd in Hr. discriminate.
      - apply andb_true_iff in E. destruct E as [E1 E2]. cbn. rewrite E1. apply (IH w E2 Hl). }
    apply starts_with_app in Q. destruct Q as [x ->]. destruct (P t x eq_refl Ht) as [c [x' [-> Hc]]]. exists c, x'. split; [reflexivity | exact Hc]. }
  destruct (S "void"%string) as [[c [x [-> Hc]]]|Hv]; [cbn; tauto| |].
  - right. exists (c :: x ++ r), None. split; [|cbn; rewrite (word_not_space c Hc); reflexivity]. unfold ret_ty. rewrite <- app_assoc. cbn [app].
    rewrite (palt_err _ _ _ (c :: x ++ r)).
    + unfold pmap. rewrite tag_ok. reflexivity.
    + unfold pmap, type_. cbn [type_f]. unfold type_body, popt. rewrite tag_ok. cbn [pbind]. rewrite space1_err; [reflexivity|]. cbn. rewrite (word_not_space c Hc). reflexivity.
  - assert (V : ret_ty (w ++ r) = match type_ (w ++ r) with Error _ => Error (w ++ r) | Done i t => Done i (Some t) | Failure e => Failure e | NoFuel => NoFuel end).
    { unfold ret_ty, palt, pmap. destruct (type_ (w ++ r)); cbn [pbind]; try reflexivity. rewrite tag_err by exact Hv. reflexivity. }
    assert (T : type_ (w ++ r) = let rec := type_f (length (w ++ r)) in pbind (base rec (w ++ r)) (fun i t => after rec i t)).
    { unfold type_. cbn [type_f]. unfold type_body, popt. rewrite tag_err by exact Hv. cbn [pbind]. reflexivity. }
    destruct w as [|c w]; [contradiction|]. assert (Hc : word_char c = true) by (unfold all in Hw; cbn in Hw; apply andb_true_iff in Hw; apply Hw).
    cbv zeta in T. rewrite (base_letter _ c (w ++ r) Hc (or_intror I)) in T.
    assert (D : forall t (u : ty), In t ["double"; "float"; "void"; "ptr"]%string ->
      errs (pmap (tag t) (fun _ => u)) ((c :: w) ++ r) \/ exists d x, pmap (tag t) (fun _ => u) ((c :: w) ++ r) = Done (d :: x) u /\ word_char d = true).
    { intros t u Ht. destruct (S t Ht) as [[d [x [E Hd]]]|E].
      - right. exists d, (x ++ r). split; [|exact Hd]. rewrite E, <- app_assoc. unfold pmap. cbn [app]. rewrite tag_ok. reflexivity.
      - left. exists ((c :: w) ++ r). unfold pmap. rewrite tag_err by exact E. reflexivity. }
    unfold palt at 1 in T. destruct (D "double"%string TDouble) as [[e E]|[d [x [E Hd]]]]; [cbn; tauto | |].
    2: { cbn [app] in E. rewrite E in T. cbn [pbind] in T. rewrite after_word in T by exact Hd. rewrite T in V. right. exists (d :: x), (Some TDouble). split; [exact V|]. cbn. rewrite (word_not_space d Hd). reflexivity. }
    cbn [app] in E. rewrite E in T. clear E. unfold palt at 1 in T. destruct (D "float"%string TFloat) as [[e2 E]|[d [x [E Hd]]]]; [cbn; tauto | |].
    2: { cbn [app] in E. rewrite E in T. cbn [pbind] in T. rewrite after_word in T by exact Hd. rewrite T in V. right. exists (d :: x), (Some TFloat). split; [exact V|]. cbn. rewrite (word_not_space d Hd). reflexivity. }
    cbn [app] in E. rewrite E in T. clear E. unfold palt at 1 in T. destruct (D "ptr"%string TOpaque) as [[e3 E]|[d [x [E Hd]]]]; [cbn; tauto | |].
    2: { cbn [app] in E. rewrite E in T. cbn [pbind] in T. rewrite after_word in T by exact Hd. rewrite T in V. right. exists (d :: x), (Some TOpaque). split; [exact V|]. cbn. rewrite (word_not_space d Hd). reflexivity. }
    cbn [app] in E. rewrite E in T. clear E.
    assert (I : errs integer (c :: w ++ r)).
    { unfold integer, errs. destruct (Ascii.eqb_spec c "i") as [->|Hi].
      - exists (w ++ r). rewrite char_ok. cbn [pbind]. unfold count, pmap_res. rewrite digit1_err; [reflexivity|].
        destruct w as [|d w]; [exact (not_digit_head r Hr)|]. cbn [app not_head]. rewrite word_not_digit; [reflexivity|]. unfold all in Hw. cbn in Hw. apply andb_true_iff in Hw. apply Hw.
      - exists (c :: w ++ r). rewrite char_err; [reflexivity|]. unfold not_head. destruct (Ascii.eqb_spec "i" c) as [X|_]; [congruence | reflexivity]. }
    destruct I as [e4 I]. unfold palt at 1 in T. rewrite I in T.
    rewrite (palt_err _ _ _ (c :: w ++ r)) in T.
    2: { unfold pmap. rewrite tag_err_head; [reflexivity|]. cbn [lit list_ascii_of_string]. rewrite word_neq by (exact Hc || reflexivity). reflexivity. }
    unfold mvt_vector, delimited in T. rewrite char_err in T.
    2: { cbn [not_head]. rewrite word_neq by (exact Hc || reflexivity). reflexivity. }
    cbn [pbind] in T. left. exists ((c :: w) ++ r). rewrite T in V. exact V.
Qed.
Lemma ret_attr a r : attr_text a -> not_head s_ident r = true -> no_type (a ++ r).
Proof.
  intros Ha Hr. destruct (attr_word a Ha) as [w [x [-> [Hn [Hw [Hx Hout]]]]]]. rewrite <- app_assoc. apply ret_word; try assumption. destruct x; assumption.
Qed.

(** * Values *)
Lemma ends_sp x : not_head s_space x = true -> not_head (Ascii.eqb "(") x = true -> type_ends (" "%char :: x) = true.
Proof.
  intros H1 H2. unfold type_ends. change (not_head (fun c => s_ident c || Ascii.eqb c "*") (" "%char :: x)) with true. cbn [andb].
  change (skip_spaces (" "%char :: x)) with (skip_spaces x). replace (skip_spaces x) with x; [rewrite H2; apply orb_true_r|].
  destruct x as [|c x]; [reflexivity|]. cbn [skip_spaces]. cbn [not_head] in H1. apply negb_true_iff in H1. rewrite H1. reflexivity.
Qed.
Lemma digits_head d r : digits_text d -> exists c x, d ++ r = c :: x /\ s_digit c = true.
Proof.
  intros [Hn Ha]. destruct d as [|c d]; [contradiction|]. exists c, (d ++ r). split; [reflexivity|]. unfold all in Ha. cbn in Ha. apply andb_true_iff in Ha. apply Ha.
Qed.
Lemma digit_not p : (forall c, s_digit c = true -> p c = false) -> forall d r, digits_text d -> not_head p (d ++ r) = true.
Proof. intros H d r Hd. destruct (digits_head d r Hd) as [c [x [-> Hc]]]. cbn [not_head]. rewrite (H c Hc). reflexivity. Qed.
Lemma digit_ns d r : digits_text d -> not_head s_space (d ++ r) = true.
Proof. apply digit_not. intros c Hc. destruct (s_space c) eqn:E; [|reflexivity]. apply space_not_ident in E. apply digit_ident in Hc. congruence. Qed.
Lemma local_ok s r : local_text s -> not_head s_ident r = true -> local (s ++ r) = Done r tt.
Proof.
  intros [x Hx|x Hx] Hr; change ((lit "%" ++ x) ++ r) with ("%"%char :: x ++ r); unfold local; rewrite char_ok; cbn [pbind].
  - rewrite (palt_err _ _ _ (x ++ r)); [unfold pmap; rewrite ident_ok by assumption; reflexivity|]. unfold pmap. rewrite digit1_err; [reflexivity|].
    destruct Hx as [Hn [_ Hx]]. rewrite not_head_app by exact Hn. exact Hx.
  - unfold palt, pmap. rewrite digit1_ok by (assumption || (apply not_digit_head; assumption)). reflexivity.
Qed.
Lemma local_head s : local_text s -> exists x, s = "%"%char :: x.
Proof. intros [x _|x _]; exists x; reflexivity. Qed.
Lemma global_name_ok n s r : name_text n s -> not_head s_ident r = true -> exists o, global ("@"%char :: s ++ r) = Done r o /\ (~ digits_text s -> o = Some n).
Proof.
  intros H Hr. unfold global. rewrite char_ok. cbn [pbind]. destruct H as [Hq|Hi|Hd].
  - exists (Some n). split; [|reflexivity]. cbn [app]. rewrite <- app_assoc. unfold palt, pmap. cbn [app]. rewrite string_ok by exact Hq. reflexivity.
  - exists (Some n). split; [|reflexivity]. destruct Hi as [Hn [Ha Hd]]. rewrite (palt_err _ _ _ (n ++ r)).
    + rewrite (palt_err _ _ _ (n ++ r)); [unfold pmap; rewrite ident_ok by (repeat split; assumption); reflexivity|]. unfold pmap. rewrite digit1_err; [reflexivity|].
      rewrite not_head_app by exact Hn. exact Hd.
    + unfold pmap. rewrite string_err; [reflexivity|]. rewrite not_head_app by exact Hn. rewrite <- (app_nil_r n). apply (ident_head_not dquote n Ha); reflexivity.
  - exists None. split; [|contradiction]. rewrite (palt_err _ _ _ (n ++ r)).
    + unfold palt, pmap. rewrite digit1_ok by (assumption || (apply not_digit_head; assumption)). reflexivity.
    + unfold pmap. rewrite string_err; [reflexivity|]. apply digit_not; [|exact Hd]. intros c Hc. destruct (Ascii.eqb_spec dquote c) as [<-|_]; [discriminate | reflexivity].
Qed.
Lemma global_ok g r : global_text g -> not_head s_ident r = true -> exists o, global (g ++ r) = Done r o.
Proof. intros [n s H] Hr. destruct (global_name_ok n s r H Hr) as [o [E _]]. exists o. exact E. Qed.
Lemma global_head g : global_text g -> exists x, g = "@"%char :: x.
Proof. intros [n s _]. exists s. reflexivity. Qed.
Lemma index_ok x r : index_text x -> not_head s_digit r = true -> exists d, gep_index (x ++ r) = Done r d.
Proof.
  intros [t s d Ht Hv Hd] Hr. exists d. unfold gep_index. rewrite <- !app_assoc.
  change (lit ", " ++ s ++ lit " " ++ d ++ r) with (","%char :: " "%char :: s ++ lit " " ++ d ++ r). rewrite char_ok. cbn [pbind].
  rewrite space1_ok by exact (ty_text_ns_app t s _ Ht). cbn [pbind]. change (lit " " ++ d ++ r) with (" "%char :: d ++ r).
  rewrite (type_text_ok t s _ Ht Hv).
  - cbn [pbind]. rewrite space1_ok by exact (digit_ns d r Hd). cbn [pbind]. apply digit1_ok; assumption.
  - apply ends_sp; [exact (digit_ns d r Hd)|]. apply digit_not; [|exact Hd]. intros c Hc. destruct (Ascii.eqb_spec "(" c) as [<-|_]; [discriminate | reflexivity].
Qed.
Lemma index_head x : index_text x -> exists z, x = ","%char :: z.
Proof. intros [t s d _ _ _]. eexists. reflexivity. Qed.
Lemma indices_head ix r : Forall index_text ix -> not_head s_ident (concat ix ++ ")"%char :: r) = true.
Proof. intros [|x ix' H _]; [reflexivity|]. cbn [concat]. destruct (index_head x H) as [z ->]. reflexivity. Qed.
Lemma indices_loop ix r : Forall index_text ix -> forall n, (length (concat ix ++ ")"%char :: r) < n)%nat ->
  exists l, many0_loop n gep_index (concat ix ++ ")"%char :: r) = Done (")"%char :: r) l.
Proof.
  intros H. induction H as [|x ix Hx H IH]; intros n L; (destruct n as [|n]; [lia|]); cbn [many0_loop concat app].
  - unfold gep_index. rewrite char_err by reflexivity. eexists. reflexivity.
  - cbn [concat] in L. rewrite <- app_assoc in *. destruct (index_ok x (concat ix ++ ")"%char :: r) Hx) as [d Ed]; [apply not_digit_head, indices_head; exact H|].
    rewrite Ed. destruct (index_head x Hx) as [z ->]. cbn [app length] in L |- *. rewrite app_length in L.
    destruct (Nat.eqb_spec (length (concat ix ++ ")"%char :: r)) (S (length (z ++ concat ix ++ ")"%char :: r)))) as [E|_]; [rewrite (app_length z) in E; lia|].
    destruct (IH n) as [l El]; [lia|]. rewrite El. eexists. reflexivity.
Qed.
Lemma ends_global g r : global_text g -> type_ends (" "%char :: g ++ r) = true.
Proof. intros H. destruct (global_head g H) as [x ->]. apply ends_sp; reflexivity. Qed.
Lemma gep_body_ok t s t' s' g ix r : ty_text t s -> void_ok t = true -> ty_text t' s' -> void_ok t' = true -> global_text g -> ix <> [] -> Forall index_text ix ->
  exists o, gep_body (s ++ lit ", " ++ s' ++ lit " " ++ g ++ concat ix ++ ")"%char :: r) = Done (")"%char :: r) o.
Proof.
  intros Ht Hv Ht' Hv' Hg Hne Hix. unfold gep_body. rewrite (type_text_ok t s _ Ht Hv) by apply ends_comma. cbn [pbind].
  change (lit ", " ++ s' ++ lit " " ++ g ++ concat ix ++ ")"%char :: r) with (","%char :: " "%char :: s' ++ " "%char :: g ++ concat ix ++ ")"%char :: r).
  rewrite char_ok. cbn [pbind]. rewrite space1_ok by exact (ty_text_ns_app t' s' _ Ht'). cbn [pbind]. rewrite (type_text_ok t' s' _ Ht' Hv') by (apply ends_global; exact Hg).
  cbn [pbind]. rewrite space1_ok by (destruct (global_head g Hg) as [x ->]; reflexivity). cbn [pbind].
  destruct (global_ok g (concat ix ++ ")"%char :: r) Hg (indices_head ix r Hix)) as [o Eo]. rewrite Eo. cbn [pbind]. exists o.
  destruct Hix as [|x ix Hx Hix]; [contradiction|]. cbn [concat]. rewrite <- app_assoc. unfold many1.
  destruct (index_ok x (concat ix ++ ")"%char :: r) Hx) as [d Ed]; [apply not_digit_head, indices_head; exact Hix|]. rewrite Ed. cbn [pbind].
  destruct (indices_loop ix r Hix _ (Nat.lt_succ_diag_r _)) as [l El]. rewrite El. reflexivity.
Qed.
Lemma gep_ok x r : gep_text x -> exists o, getelementptr (x ++ r) = Done r o.
Proof.
  intros [inb t s t' s' g ix Hi Ht Hv Ht' Hv' Hg Hne Hix]. unfold getelementptr, delimited. rewrite <- !app_assoc.
  change (lit ")" ++ r) with (")"%char :: r). destruct (gep_body_ok t s t' s' g ix r Ht Hv Ht' Hv' Hg Hne Hix) as [o Eo].
  set (body := s ++ lit ", " ++ s' ++ lit " " ++ g ++ concat ix ++ ")"%char :: r) in *.
  change (lit "getelementptr " ++ inb ++ lit "(" ++ body) with (lit "getelementptr" ++ " "%char :: inb ++ "("%char :: body).
  rewrite tag_ok. cbn [pbind]. exists o. destruct Hi as [-> | ->].
  - cbn [app]. rewrite space1_ok by reflexivity. cbn [pbind]. unfold popt. rewrite tag_err by reflexivity. cbn [pbind]. rewrite char_ok. cbn [pbind]. rewrite Eo. cbn [pbind].
    rewrite char_ok. reflexivity.
  - rewrite space1_ok by reflexivity. cbn [pbind]. unfold popt. change (lit "inbounds " ++ "("%char :: body) with (lit "inbounds" ++ " "%char :: "("%char :: body).
    rewrite tag_ok. cbn [pbind]. rewrite space1_ok by reflexivity. cbn [pbind]. rewrite char_ok. cbn [pbind]. rewrite Eo. cbn [pbind]. rewrite char_ok. reflexivity.
Qed.
Lemma gep_head x : gep_text x -> exists z, x = lit "getelementptr" ++ " "%char :: z.
Proof. intros [inb t s t' s' g ix _ _ _ _ _ _ _ _]. eexists. reflexivity. Qed.
Lemma bitcast_ok t s x t' s' r : ty_text t s -> void_ok t = true -> global_text x \/ gep_text x -> ty_text t' s' -> void_ok t' = true ->
  exists o, bitcast (lit "bitcast (" ++ s ++ lit " " ++ x ++ lit " to " ++ s' ++ ")"%char :: r) = Done r o /\
    forall nm q, x = "@"%char :: q -> name_text nm q -> ~ digits_text q -> o = Some nm.
Proof.
  intros Ht Hv Hx Ht' Hv'. unfold bitcast, delimited, bitcast_body.
  set (tl := lit " to " ++ s' ++ ")"%char :: r).
  assert (Ho : exists o, palt global getelementptr (x ++ tl) = Done tl o /\ forall nm q, x = "@"%char :: q -> name_text nm q -> ~ digits_text q -> o = Some nm).
  { destruct Hx as [Hx|Hx].
    - destruct Hx as [n q Hq]. destruct (global_name_ok n q tl Hq eq_refl) as [o [E Eo]]. exists o. split.
      + unfold palt. change ((lit "@" ++ q) ++ tl) with ("@"%char :: q ++ tl). rewrite E. reflexivity.
      + intros nm q' X Hq' Hd. injection X as <-. rewrite (Eo Hd). f_equal. pose proof (name_ok n q [] Hq eq_refl) as A. pose proof (name_ok nm q [] Hq' eq_refl) as B. congruence.
    - destruct (gep_ok x tl Hx) as [o E]. exists o. split.
      + rewrite (palt_err _ _ _ (x ++ tl)); [exact E|]. unfold global. destruct (gep_head x Hx) as [z ->]. rewrite <- app_assoc. rewrite char_err by reflexivity. reflexivity.
      + intros nm q X. destruct (gep_head x Hx) as [z ->]. discriminate. }
  destruct Ho as [o [Eo Ho]]. exists o. split; [|exact Ho].
  assert (Hns : not_head s_space (x ++ tl) = true /\ not_head (Ascii.eqb "(") (x ++ tl) = true).
  { destruct Hx as [Hx|Hx]; [destruct (global_head x Hx) as [z ->] | destruct (gep_head x Hx) as [z ->]]; split; reflexivity. }
  change (lit "bitcast (" ++ s ++ lit " " ++ x ++ tl) with (lit "bitcast" ++ " "%char :: "("%char :: s ++ " "%char :: x ++ tl).
  rewrite tag_ok. cbn [pbind]. rewrite space1_ok by reflexivity. cbn [pbind]. rewrite char_ok. cbn [pbind].
  rewrite (type_text_ok t s _ Ht Hv) by (apply ends_sp; apply Hns). cbn [pbind]. rewrite space1_ok by apply Hns. cbn [pbind]. rewrite Eo. cbn [pbind].
  change tl with (" "%char :: lit "to" ++ " "%char :: s' ++ ")"%char :: r). rewrite space1_ok by reflexivity. cbn [pbind]. rewrite tag_ok. cbn [pbind].
  rewrite space1_ok by exact (ty_text_ns_app t' s' _ Ht'). cbn [pbind]. rewrite (type_text_ok t' s' _ Ht' Hv') by (apply ends_char; reflexivity). cbn [pbind].
  rewrite char_ok. reflexivity.
Qed.
Lemma value_ok v r : value_text v -> not_head s_ident r = true -> value (v ++ r) = Done r tt.
Proof.
  intros Hv Hr. unfold value.
  assert (B : forall i c z, i = c :: z -> Ascii.eqb "b" c = false -> errs (drop bitcast) i).
  { intros i c z -> Hc. exists (c :: z). unfold drop, pmap, bitcast. rewrite tag_err_head; [reflexivity|]. cbn [lit list_ascii_of_string]. rewrite Hc. reflexivity. }
  assert (G : forall i c z, i = c :: z -> Ascii.eqb "g" c = false -> errs (drop getelementptr) i).
  { intros i c z -> Hc. exists (c :: z). unfold drop, pmap, getelementptr. rewrite tag_err_head; [reflexivity|]. cbn [lit list_ascii_of_string]. rewrite Hc. reflexivity. }
  assert (L : forall i c z, i = c :: z -> Ascii.eqb "%" c = false -> errs local i).
  { intros i c z -> Hc. exists (c :: z). unfold local. rewrite char_err; [reflexivity|]. cbn [not_head]. rewrite Hc. reflexivity. }
  assert (F : forall i c z, i = c :: z -> Ascii.eqb "@" c = false -> errs (drop function) i).
  { intros i c z -> Hc. exists (c :: z). unfold drop, pmap, function. rewrite char_err; [reflexivity|]. cbn [not_head]. rewrite Hc. reflexivity. }
  assert (T : forall i c z t, i = c :: z -> match lit t with d :: _ => negb (Ascii.eqb d c) | [] => false end = true -> errs (tag t) i).
  { intros i c z t -> Hc. exists (c :: z). apply tag_err_head. exact Hc. }
  assert (I : forall i c z, i = c :: z -> Ascii.eqb "-" c = false -> s_digit c = false -> errs (drop int_const) i).
  { intros i c z -> Hc Hd. exists (c :: z). unfold drop, pmap, int_const, popt. rewrite char_err by (cbn [not_head]; rewrite Hc; reflexivity). cbn [pbind].
    rewrite digit1_err; [reflexivity|]. cbn [not_head]. rewrite Hd. reflexivity. }
  assert (N : forall d c, s_digit d = true -> s_digit c = false -> Ascii.eqb c d = false).
  { intros d c Hd Hc. destruct (Ascii.eqb_spec c d) as [->|_]; [congruence | reflexivity]. }
  assert (E : forall (p q : parser unit) i x, errs p i -> q i = x -> palt p q i = x).
  { intros p q i x [e He] <-. apply (palt_err p q i e He). }
  destruct Hv as [s Hs|s Hs| | | | |d Hd|d Hd|s Hs|t s x t' s' Ht Hvt Hx Ht' Hvt'].
  - pose proof (local_ok s r Hs Hr) as H. destruct (local_head s Hs) as [z ->]. cbn [app] in *.
    apply E; [eapply B; reflexivity|]. apply E; [eapply G; reflexivity|]. unfold palt. rewrite H. reflexivity.
  - destruct Hs as [n q Hq]. pose proof (function_ok n q r Hq Hr) as H. change ((lit "@" ++ q) ++ r) with ("@"%char :: q ++ r).
    apply E; [eapply B; reflexivity|]. apply E; [eapply G; reflexivity|]. apply E; [eapply L; reflexivity|]. unfold palt, drop, pmap. rewrite H. reflexivity.
  - apply E; [eapply B; reflexivity|]. apply E; [eapply G; reflexivity|]. apply E; [eapply L; reflexivity|]. apply E; [eapply F; reflexivity|].
    unfold palt. rewrite tag_ok. reflexivity.
  - apply E; [eapply B; reflexivity|]. apply E; [eapply G; reflexivity|]. apply E; [eapply L; reflexivity|]. apply E; [eapply F; reflexivity|].
    apply E; [eapply T; reflexivity|]. unfold palt. rewrite tag_ok. reflexivity.
  - apply E; [eapply B; reflexivity|]. apply E; [eapply G; reflexivity|]. apply E; [eapply L; reflexivity|]. apply E; [eapply F; reflexivity|].
    apply E; [eapply T; reflexivity|]. apply E; [eapply T; reflexivity|]. apply E; [eapply I; reflexivity|]. unfold palt. rewrite tag_ok. reflexivity.
  - apply E; [eapply B; reflexivity|]. apply E; [eapply G; reflexivity|]. apply E; [eapply L; reflexivity|]. apply E; [eapply F; reflexivity|].
    apply E; [eapply T; reflexivity|]. apply E; [eapply T; reflexivity|]. apply E; [eapply I; reflexivity|]. apply E; [eapply T; reflexivity|]. apply tag_ok.
  - pose proof (digit1_ok d r Hd (not_digit_head r Hr)) as H. destruct (digits_head d r Hd) as [c [z [Ez Hc]]]. rewrite Ez in *.
    apply E; [eapply B; [reflexivity | apply N; [exact Hc | reflexivity]]|].
    apply E; [eapply G; [reflexivity | apply N; [exact Hc | reflexivity]]|].
    apply E; [eapply L; [reflexivity | apply N; [exact Hc | reflexivity]]|].
    apply E; [eapply F; [reflexivity | apply N; [exact Hc | reflexivity]]|].
    apply E; [eapply T; [reflexivity | cbn [lit list_ascii_of_string]; rewrite N; [reflexivity | exact Hc | reflexivity]]|].
    apply E; [eapply T; [reflexivity | cbn [lit list_ascii_of_string]; rewrite N; [reflexivity | exact Hc | reflexivity]]|].
    unfold palt, drop, pmap, int_const, popt. rewrite char_err by (cbn [not_head]; rewrite N; [reflexivity | exact Hc | reflexivity]). cbn [pbind]. rewrite H. reflexivity.
  - pose proof (digit1_ok d r Hd (not_digit_head r Hr)) as H. change ((lit "-" ++ d) ++ r) with ("-"%char :: d ++ r).
    apply E; [eapply B; reflexivity|]. apply E; [eapply G; reflexivity|]. apply E; [eapply L; reflexivity|]. apply E; [eapply F; reflexivity|].
    apply E; [eapply T; reflexivity|]. apply E; [eapply T; reflexivity|]. unfold palt, drop, pmap, int_const, popt. rewrite char_ok. cbn [pbind]. rewrite H. reflexivity.
  - destruct (gep_ok s r Hs) as [o H]. destruct (gep_head s Hs) as [z ->]. rewrite <- app_assoc in *.
    apply E; [eapply B; reflexivity|]. unfold palt, drop, pmap. rewrite H. reflexivity.
  - destruct (bitcast_ok t s x t' s' r Ht Hvt Hx Ht' Hvt') as [o [H _]]. rewrite <- !app_assoc. change (lit ")" ++ r) with (")"%char :: r).
    unfold palt, drop, pmap. rewrite H. reflexivity.
Qed.
