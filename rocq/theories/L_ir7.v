(** Reading of arguments, parameters and calls. *)
From Verif Require Import M_base M_nom M_ty M_parse S_ir L_base L_nom L_ir1 L_ir2 L_ir3 L_ir4 L_ir5 L_ir6.

Lemma Forall2_weaken {A B} (P Q : A -> B -> Prop) l m : (forall x y, P x y -> Q x y) -> Forall2 P l m -> Forall2 Q l m.
Proof. intros H F. induction F; constructor; auto. Qed.
(** * Arguments *)
(** What follows an element of a list in parentheses. *)
Definition list_next (r : str) : Prop := exists c x, r = c :: x /\ one_of ",)" c = true.
Lemma next_comma r : list_next (lit ", " ++ r).
Proof. eexists; eexists; split; reflexivity. Qed.
Lemma next_not p r : p ","%char = false -> p ")"%char = false -> list_next r -> not_head p r = true.
Proof.
  intros H1 H2 [c [x [-> Hc]]]. cbn [not_head]. unfold one_of in Hc. cbn [list_ascii_of_string existsb] in Hc.
  repeat (apply orb_true_iff in Hc; destruct Hc as [Hc|Hc]); try discriminate; apply Ascii.eqb_eq in Hc; subst c; rewrite ?H1, ?H2; reflexivity.
Qed.
Lemma next_ends r : list_next r -> type_ends r = true.
Proof.
  intros [c [x [-> Hc]]]. apply ends_char. unfold one_of in Hc. cbn [list_ascii_of_string existsb] in Hc.
  repeat (apply orb_true_iff in Hc; destruct Hc as [Hc|Hc]); try discriminate; apply Ascii.eqb_eq in Hc; subst c; reflexivity.
Qed.
Lemma value_head v r : value_text v -> not_head s_space (v ++ r) = true /\ not_head (Ascii.eqb "(") (v ++ r) = true.
Proof.
  intros [s Hs|s Hs| | | | |d Hd|d Hd|s Hs|t s x t' s' _ _ _ _ _]; try (split; reflexivity).
  - destruct (local_head s Hs) as [z ->]. split; reflexivity.
  - destruct (global_head s Hs) as [z ->]. split; reflexivity.
  - split; [exact (digit_ns d r Hd)|]. apply digit_not; [|exact Hd]. intros c Hc. destruct (Ascii.eqb_spec "(" c) as [<-|_]; [discriminate | reflexivity].
  - destruct (gep_head s Hs) as [z ->]. split; reflexivity.
Qed.
Lemma attr_sp_plain w r : w <> [] -> all word_char w -> not_head s_ident r = true -> not_head s_space r = true ->
  word_in w ["dereferenceable"; "dereferenceable_or_null"; "alignstack"]%string = false ->
  word_in w ["sret"; "preallocated"; "inalloca"; "elementtype"; "byval"; "byref"]%string = false -> word_in w ["align"]%string = false -> errs attr_sp (w ++ r).
Proof.
  intros Hn Hw Hr Hs H1 H2 H3. exists r. unfold attr_sp, attribute. rewrite take_word by assumption. cbn [pbind]. rewrite H1, H2, H3.
  destruct (word_in w ["double"; _; _; _]%string); [reflexivity|]. destruct (word_in w ["bitcast"; _]%string); [reflexivity|].
  destruct (word_in w ["alias"; _; _]%string); [reflexivity|]. cbn [pbind]. rewrite space1_err by exact Hs. reflexivity.
Qed.
Lemma attr_sp_value v r : value_text v -> list_next r -> errs attr_sp (v ++ r).
Proof.
  intros H Hr. assert (Ri : not_head s_ident r = true) by (apply next_not; [reflexivity | reflexivity | exact Hr]).
  assert (Rs : not_head s_space r = true) by (apply next_not; [reflexivity | reflexivity | exact Hr]).
  destruct H as [s Hs|s Hs| | | | |d Hd|d Hd|s Hs|t s x t' s' _ _ _ _ _]; try (apply attr_sp_plain; (assumption || reflexivity || discriminate)).
  - destruct (local_head s Hs) as [z ->]. apply attr_sp_head. reflexivity.
  - destruct (global_head s Hs) as [z ->]. apply attr_sp_head. reflexivity.
  - apply attr_sp_head. apply digit_not; [|exact Hd]. intros c Hc. destruct (word_char c) eqn:E; [|reflexivity]. apply word_not_digit in E. congruence.
  - apply attr_sp_head. reflexivity.
  - destruct (gep_head s Hs) as [z ->]. rewrite <- app_assoc. apply attr_sp_word; try (discriminate || reflexivity). cbn; tauto.
  - change (lit "bitcast (" ++ s ++ lit " " ++ x ++ lit " to " ++ s' ++ lit ")") with (lit "bitcast" ++ lit " (" ++ s ++ lit " " ++ x ++ lit " to " ++ s' ++ lit ")").
    rewrite <- app_assoc. apply attr_sp_word; try (discriminate || reflexivity). cbn; tauto.
Qed.
Lemma before_np l x : Forall attr_text l -> not_head (Ascii.eqb "(") x = true -> not_head (Ascii.eqb "(") (attrs_before l ++ x) = true.
Proof.
  intros H Hx. destruct H as [|a l Ha H]; [exact Hx|]. destruct (attr_head a Ha) as [c [z [-> Hc]]]. cbn [attrs_before app not_head].
  rewrite word_neq by (exact Hc || reflexivity). reflexivity.
Qed.
Lemma arg_ok t s r : arg_text t s -> list_next r -> argument (s ++ r) = Done r t.
Proof.
  intros [t' x l v Ht Hv Hl Hval] Hr. unfold argument. rewrite <- !app_assoc. change (lit " " ++ ?z) with (" "%char :: z).
  destruct (value_head v r Hval) as [V1 V2]. rewrite (type_text_ok _ x _ Ht Hv) by (apply ends_sp; [apply before_ns | apply before_np]; assumption). cbn [pbind].
  rewrite space1_ok by (apply before_ns; assumption). cbn [pbind]. destruct (before_ok l (v ++ r) Hl V1 (attr_sp_value v r Hval Hr)) as [u ->]. cbn [pbind].
  rewrite value_ok; [reflexivity | exact Hval|]. apply next_not; [reflexivity | reflexivity | exact Hr].
Qed.
Lemma arg_ns t s : arg_text t s -> not_head s_space s = true /\ s <> [].
Proof.
  intros [t' x l v Ht _ _ _]. destruct (ty_text_ns _ _ Ht) as [H1 H2]. split; [rewrite not_head_app by exact H2; exact H1|]. destruct x; [contradiction | discriminate].
Qed.
Lemma type_err i : not_head (one_of type_head) i = true -> errs type_ i.
Proof. intros H. apply (type_head_err (length i) i H). Qed.
Lemma args_ok l ss r : Forall2 arg_text l ss -> separated_list0 comma argument (comma_list ss ++ ")"%char :: r) = Done (")"%char :: r) l.
Proof.
  intros H. apply (list_text argument list_next (length (comma_list ss ++ ")"%char :: r))).
  - exact next_comma.
  - eexists; eexists; split; reflexivity.
  - reflexivity.
  - intros _. destruct (type_err (")"%char :: r) eq_refl) as [e He]. exists e. unfold argument. rewrite He. reflexivity.
  - refine (Forall2_weaken _ _ l ss _ H). intros t s Ht. destruct (arg_ns t s Ht) as [H1 H2]. split; [exact H1|]. split; [exact H2|].
    intros r' _ Hr'. apply arg_ok; assumption.
  - lia.
Qed.

(** * Parameters *)
Lemma sp_attr_ok a r : attr_text a -> not_head s_ident r = true -> sp_attr (lit " " ++ a ++ r) = Done r tt.
Proof. intros Ha Hr. unfold sp_attr. change (lit " " ++ a ++ r) with (" "%char :: a ++ r). rewrite space1_ok by exact (attr_ns a r Ha). cbn [pbind]. apply attribute_ok; assumption. Qed.
Lemma after_head p l x : p " "%char = false -> not_head p x = true -> not_head p (attrs_after l ++ x) = true.
Proof. intros H Hx. destruct l as [|a l]; [exact Hx|]. cbn [attrs_after app lit list_ascii_of_string not_head]. rewrite H. reflexivity. Qed.
Lemma many0_after l x : Forall attr_text l -> not_head s_ident x = true -> errs sp_attr x ->
  forall n, (length (attrs_after l ++ x) < n)%nat -> exists u, many0_loop n sp_attr (attrs_after l ++ x) = Done x u.
Proof.
  intros H Hx [e He]. induction H as [|a l Ha H IH]; intros n L.
  - destruct n as [|n]; [lia|]. cbn [attrs_after app many0_loop]. rewrite He. eexists. reflexivity.
  - destruct n as [|n]; [lia|]. cbn [attrs_after] in *. rewrite <- !app_assoc in *. cbn [many0_loop].
    rewrite sp_attr_ok by (assumption || (apply after_head; [reflexivity | exact Hx])).
    repeat rewrite app_length in L. cbn [length lit list_ascii_of_string] in L.
    destruct (Nat.eqb_spec (length (attrs_after l ++ x)) (length (lit " " ++ a ++ attrs_after l ++ x))) as [E|_].
    { repeat rewrite app_length in E. cbn [length lit list_ascii_of_string] in E. lia. }
    destruct (IH n) as [u Hu]; [rewrite app_length; lia|]. rewrite Hu. eexists. reflexivity.
Qed.
Lemma after_ok l x : Forall attr_text l -> not_head s_ident x = true -> errs sp_attr x -> exists u, many0 sp_attr (attrs_after l ++ x) = Done x u.
Proof. intros H Hx He. apply many0_after; [assumption .. | lia]. Qed.
Lemma ends_after l x : Forall attr_text l -> type_ends x = true -> type_ends (attrs_after l ++ x) = true.
Proof.
  intros H Hx. destruct H as [|a l Ha H]; [exact Hx|]. cbn [attrs_after]. rewrite <- !app_assoc. change (lit " " ++ ?z) with (" "%char :: z).
  apply ends_sp; [exact (attr_ns a _ Ha)|]. destruct (attr_head a Ha) as [c [z [-> Hc]]]. cbn [app not_head]. rewrite word_neq by (exact Hc || reflexivity). reflexivity.
Qed.
Lemma sp_attr_next r : list_next r -> errs sp_attr r.
Proof. intros H. exists r. unfold sp_attr. rewrite space1_err; [reflexivity|]. apply next_not; [reflexivity | reflexivity | exact H]. Qed.
Lemma opt_sp_next {A} (p : parser A) r : list_next r -> popt (fun i => let? (i, _u) := space1 i in p i) r = Done r None.
Proof. intros H. unfold popt. rewrite space1_err; [reflexivity|]. apply next_not; [reflexivity | reflexivity | exact H]. Qed.
Lemma param_ok t s r : param_text t s -> list_next r -> parameter (s ++ r) = Done r t.
Proof.
  intros H Hr. assert (Ri : not_head s_ident r = true) by (apply next_not; [reflexivity | reflexivity | exact Hr]). unfold parameter.
  destruct H as [t x l Ht Hv Hl|t x l n nm Ht Hv Hl Hn]; rewrite <- !app_assoc.
  - rewrite (type_text_ok t x _ Ht Hv) by (apply ends_after; [exact Hl | exact (next_ends r Hr)]). cbn [pbind].
    destruct (after_ok l r Hl Ri (sp_attr_next r Hr)) as [u ->]. cbn [pbind]. rewrite (opt_sp_next alias r Hr). cbn [pbind]. rewrite (opt_sp_next local r Hr). reflexivity.
  - change (lit " %" ++ nm ++ r) with (" "%char :: "%"%char :: nm ++ r).
    rewrite (type_text_ok t x _ Ht Hv) by (apply ends_after; [exact Hl | apply ends_sp; reflexivity]). cbn [pbind].
    destruct (after_ok l (" "%char :: "%"%char :: nm ++ r) Hl eq_refl) as [u ->].
    { exists ("%"%char :: nm ++ r). unfold sp_attr. rewrite space1_ok by reflexivity. cbn [pbind]. unfold attribute. rewrite take_word_err by reflexivity. reflexivity. }
    cbn [pbind]. unfold popt at 1. rewrite space1_ok by reflexivity. cbn [pbind]. rewrite (alias_ok n nm r Hn Ri). cbn [pbind]. rewrite (opt_sp_next local r Hr). reflexivity.
Qed.
Lemma dparam_ok t s r : dparam_text t s -> list_next r -> decl_param (s ++ r) = Done r t.
Proof.
  intros [t' x l Ht Hv Hl] Hr. assert (Ri : not_head s_ident r = true) by (apply next_not; [reflexivity | reflexivity | exact Hr]). unfold decl_param. rewrite <- app_assoc.
  rewrite (type_text_ok t' x _ Ht Hv) by (apply ends_after; [exact Hl | exact (next_ends r Hr)]). cbn [pbind].
  destruct (after_ok l r Hl Ri (sp_attr_next r Hr)) as [u ->]. reflexivity.
Qed.
Lemma param_ns t s : param_text t s -> not_head s_space s = true /\ s <> [].
Proof.
  intros H. assert (Q : exists x y, s = x ++ y /\ ty_text t x) by (destruct H as [t x l Ht _ _|t x l n nm Ht _ _ _]; eexists; eexists; split; [reflexivity | exact Ht | reflexivity | exact Ht]).
  destruct Q as [x [y [-> Ht]]]. destruct (ty_text_ns _ _ Ht) as [H1 H2]. split; [rewrite not_head_app by exact H2; exact H1|]. destruct x; [contradiction | discriminate].
Qed.
Lemma params_ok l ss r : Forall2 param_text l ss -> separated_list0 comma parameter (comma_list ss ++ ")"%char :: r) = Done (")"%char :: r) l.
Proof.
  intros H. apply (list_text parameter list_next (length (comma_list ss ++ ")"%char :: r))).
  - exact next_comma.
  - eexists; eexists; split; reflexivity.
  - reflexivity.
  - intros _. destruct (type_err (")"%char :: r) eq_refl) as [e He]. exists e. unfold parameter. rewrite He. reflexivity.
  - refine (Forall2_weaken _ _ l ss _ H). intros t s Ht. destruct (param_ns t s Ht) as [H1 H2]. split; [exact H1|]. split; [exact H2|].
    intros r' _ Hr'. apply param_ok; assumption.
  - lia.
Qed.
Lemma dparams_ok l ss r : Forall2 dparam_text l ss -> separated_list0 comma decl_param (comma_list ss ++ ")"%char :: r) = Done (")"%char :: r) l.
Proof.
  intros H. apply (list_text decl_param list_next (length (comma_list ss ++ ")"%char :: r))).
  - exact next_comma.
  - eexists; eexists; split; reflexivity.
  - reflexivity.
  - intros _. destruct (type_err (")"%char :: r) eq_refl) as [e He]. exists e. unfold decl_param. rewrite He. reflexivity.
  - refine (Forall2_weaken _ _ l ss _ H). intros t0 s Ht. destruct Ht as [t x l' Ht Hv Hl]. destruct (ty_text_ns _ _ Ht) as [H1 H2].
    split; [rewrite not_head_app by exact H2; exact H1|]. split; [destruct x; [contradiction | discriminate]|]. intros r' _ Hr'. apply dparam_ok; [constructor; assumption | exact Hr'].
  - lia.
Qed.

(** * Calls *)
Lemma eol_not r p : p LF = false -> p CR = false -> at_eol r = true -> not_head p r = true.
Proof.
  intros H1 H2 H. destruct r as [|c r]; [reflexivity|]. cbn [at_eol] in H. cbn [not_head]. apply orb_true_iff in H. destruct H as [H|H].
  - apply Ascii.eqb_eq in H. subst c. change "010"%char with LF. rewrite H1. reflexivity.
  - apply andb_true_iff in H. destruct H as [H _]. apply Ascii.eqb_eq in H. subst c. change "013"%char with CR. rewrite H2. reflexivity.
Qed.
Lemma nle_ok z r : line_tail z -> at_eol r = true -> not_line_ending (z ++ r) = Done r z.
Proof.
  intros Hz Hr. unfold not_line_ending. rewrite span_stop.
  - destruct r as [|c r]; [reflexivity|]. cbn [at_eol] in Hr. destruct (Ascii.eqb_spec c CR) as [->|_]; [|reflexivity]. cbn [orb] in Hr.
    change (Ascii.eqb CR "010" || Ascii.eqb CR "013" && match r with d :: _ => Ascii.eqb d "010" | [] => false end)%bool with (match r with d :: _ => Ascii.eqb d LF | [] => false end) in Hr.
    destruct r as [|d r]; [discriminate|]. rewrite Hr. reflexivity.
  - unfold line_tail, all in Hz. rewrite <- Hz. apply forallb_ext_in. intros c. rewrite s_eol_eq. reflexivity.
  - destruct r as [|c r]; [reflexivity|]. cbn [at_eol not_head] in *. unfold is_eol. change CR with "013"%char. change LF with "010"%char.
    apply orb_true_iff in Hr. destruct Hr as [->|Hr]; [rewrite orb_true_r; reflexivity|]. apply andb_true_iff in Hr. destruct Hr as [-> _]. reflexivity.
Qed.
Lemma errs_palt {A} (p q : parser A) i x : errs p i -> q i = x -> palt p q i = x.
Proof. intros [e He] <-. apply (palt_err p q i e He). Qed.
Lemma stmt_calls sp a y r st : sp <> [] -> all s_space sp -> assign_text a -> not_head s_space y = true -> not_head (Ascii.eqb "%") y = true ->
  calls y = Done r st -> stmt_ (sp ++ a ++ y) = Done r st.
Proof.
  intros Hn Hs Ha Hy Hp E. assert (Hsp : space1 (sp ++ a ++ y) = Done (a ++ y) sp).
  { apply spaces_ok; [exact Hn | exact Hs|]. destruct Ha as [|s Hl]; [exact Hy|]. destruct (local_head s Hl) as [x ->]. reflexivity. }
  assert (Hst : stmt_ (sp ++ a ++ y) = pbind (space1 (sp ++ a ++ y)) (fun i _ => palt assign calls i)).
  { destruct sp as [|c sp]; [contradiction|]. cbn [app]. apply stmt_space_eq. unfold all in Hs. cbn in Hs. apply andb_true_iff in Hs. apply Hs. }
  rewrite Hst, Hsp. cbn [pbind]. clear Hsp Hst. destruct Ha as [|s Hl].
  - cbn [app]. apply errs_palt; [|exact E]. exists y. unfold assign, local. rewrite char_err by exact Hp. reflexivity.
  - unfold palt. replace (assign ((s ++ lit " = ") ++ y)) with (Done r st : ires stmt); [reflexivity|]. symmetry. unfold assign. rewrite <- app_assoc.
    rewrite (local_ok s _ Hl) by reflexivity. cbn [pbind]. change (lit " = " ++ y) with (" "%char :: "="%char :: " "%char :: y). rewrite space1_ok by reflexivity. cbn [pbind].
    rewrite char_ok. cbn [pbind]. rewrite space1_ok by exact Hy. cbn [pbind]. exact E.
Qed.
Lemma tail_ok tl c x : tail_text tl -> call_text c -> exists u, popt tail_sp (tl ++ c ++ x) = Done (c ++ x) u.
Proof.
  intros [-> | ->] Hc; unfold popt, tail_sp.
  - cbn [app]. rewrite tag_err; [eexists; reflexivity|]. destruct Hc as [-> | ->]; reflexivity.
  - change (lit "tail " ++ c ++ x) with (lit "tail" ++ " "%char :: c ++ x). rewrite tag_ok. cbn [pbind]. rewrite space1_ok; [eexists; reflexivity|].
    destruct Hc as [-> | ->]; reflexivity.
Qed.
(** What follows the return type in a call. *)
Definition callee_head (w : str) : Prop := not_head s_space w = true /\ not_head (Ascii.eqb "(") w = true.
Lemma head_attrs l o rs w : Forall attr_text l -> ret_text o rs -> exists u, many0 attr_sp (attrs_before l ++ rs ++ " "%char :: w) = Done (rs ++ " "%char :: w) u.
Proof. intros Hl Hr. apply before_ok; [exact Hl | exact (ret_ns o rs _ Hr)|]. apply (attr_sp_ret o rs); [exact Hr | reflexivity]. Qed.
Lemma head_ret o rs w : ret_text o rs -> callee_head w -> ret_ty (rs ++ " "%char :: w) = Done (" "%char :: w) o.
Proof. intros Hr [H1 H2]. apply ret_ok; [exact Hr | apply ends_sp; assumption]. Qed.
Lemma head_ns l o rs w : Forall attr_text l -> ret_text o rs -> not_head s_space (attrs_before l ++ rs ++ w) = true.
Proof. intros Hl Hr. apply before_ns; [exact Hl | exact (ret_ns o rs w Hr)]. Qed.

Lemma asm_errs tl c l o rs w : tail_text tl -> call_text c -> Forall attr_text l -> ret_text o rs -> callee_head w -> starts_with (lit "asm") w = false ->
  errs asm (tl ++ c ++ " "%char :: attrs_before l ++ rs ++ " "%char :: w).
Proof.
  intros Ht Hc Hl Hr Hw Ha. unfold errs, asm. destruct (tail_ok tl c (" "%char :: attrs_before l ++ rs ++ " "%char :: w) Ht Hc) as [u ->]. cbn [pbind].
  destruct Hc as [-> | ->]; [|rewrite tag_err by reflexivity; eexists; reflexivity]. rewrite tag_ok. cbn [pbind].
  rewrite space1_ok by exact (head_ns l o rs _ Hl Hr). cbn [pbind]. destruct Hl as [|a l Hat Hl].
  - cbn [attrs_before app]. rewrite (head_ret o rs w Hr Hw). cbn [pbind]. rewrite space1_ok by apply Hw. cbn [pbind]. rewrite tag_err by exact Ha. eexists. reflexivity.
  - cbn [attrs_before]. rewrite <- !app_assoc. destruct (ret_attr a (lit " " ++ attrs_before l ++ rs ++ " "%char :: w) Hat eq_refl) as [[e He]|[r [o' [He Hs]]]]; rewrite He; cbn [pbind].
    + eexists. reflexivity.
    + rewrite space1_err by exact Hs. eexists. reflexivity.
Qed.
Lemma bitcast_call_errs tl c l o rs w : tail_text tl -> call_text c -> Forall attr_text l -> ret_text o rs -> callee_head w -> not_head (Ascii.eqb "b") w = true ->
  errs bitcast_call (tl ++ c ++ " "%char :: attrs_before l ++ rs ++ " "%char :: w).
Proof.
  intros Ht Hc Hl Hr Hw Ha. unfold errs, bitcast_call. destruct (tail_ok tl c (" "%char :: attrs_before l ++ rs ++ " "%char :: w) Ht Hc) as [u ->]. cbn [pbind].
  destruct Hc as [-> | ->]; [|rewrite tag_err by reflexivity; eexists; reflexivity]. rewrite tag_ok. cbn [pbind].
  rewrite space1_ok by exact (head_ns l o rs _ Hl Hr). cbn [pbind]. destruct (head_attrs l o rs w Hl Hr) as [u' ->]. cbn [pbind].
  rewrite (head_ret o rs w Hr Hw). cbn [pbind]. rewrite space1_ok by apply Hw. cbn [pbind]. unfold bitcast. rewrite tag_err; [eexists; reflexivity|].
  destruct w as [|d w]; [reflexivity|]. cbn [not_head] in Ha. apply negb_true_iff in Ha. cbn [lit list_ascii_of_string starts_with]. rewrite Ha. reflexivity.
Qed.
Lemma direct_call_errs tl c l o rs w : tail_text tl -> call_text c -> Forall attr_text l -> ret_text o rs -> callee_head w -> not_head (Ascii.eqb "@") w = true ->
  errs direct_call (tl ++ c ++ " "%char :: attrs_before l ++ rs ++ " "%char :: w).
Proof.
  intros Ht Hc Hl Hr Hw Ha. unfold errs, direct_call. destruct (tail_ok tl c (" "%char :: attrs_before l ++ rs ++ " "%char :: w) Ht Hc) as [u ->]. cbn [pbind].
  assert (C : palt (tag "call") (tag "invoke") (c ++ " "%char :: attrs_before l ++ rs ++ " "%char :: w) = Done (" "%char :: attrs_before l ++ rs ++ " "%char :: w) tt).
  { destruct Hc as [-> | ->]; [unfold palt; rewrite tag_ok; reflexivity|]. apply errs_palt; [eexists; apply tag_err; reflexivity | apply tag_ok]. }
  rewrite C. cbn [pbind]. rewrite space1_ok by exact (head_ns l o rs _ Hl Hr). cbn [pbind]. destruct (head_attrs l o rs w Hl Hr) as [u' ->]. cbn [pbind].
  rewrite (head_ret o rs w Hr Hw). cbn [pbind]. rewrite space1_ok by apply Hw. cbn [pbind]. unfold function. rewrite char_err by exact Ha. eexists. reflexivity.
Qed.
Lemma call_first tl c x : tail_text tl -> call_text c -> not_head s_space (tl ++ c ++ x) = true /\ not_head (Ascii.eqb "%") (tl ++ c ++ x) = true.
Proof. intros [-> | ->] [-> | ->]; split; reflexivity. Qed.
Theorem direct_ok n s r : direct_text n s -> at_eol r = true -> stmt_ (s ++ r) = Done r (DirectCall n).
Proof.
  intros [sp a tl c l o rs nm z Hn Hs Ha Ht Hc Hl Hr Hnm Hz] He. rewrite <- !app_assoc.
  set (w := "@"%char :: nm ++ lit "(" ++ z ++ r).
  change (lit " " ++ attrs_before l ++ rs ++ lit " @" ++ nm ++ lit "(" ++ z ++ r) with (" "%char :: attrs_before l ++ rs ++ " "%char :: w).
  assert (Hw : callee_head w) by (split; reflexivity). destruct (call_first tl c (" "%char :: attrs_before l ++ rs ++ " "%char :: w) Ht Hc) as [F1 F2].
  apply stmt_calls; try assumption. unfold calls. apply errs_palt; [apply (asm_errs tl c l o rs w); (assumption || reflexivity)|].
  apply errs_palt; [apply (bitcast_call_errs tl c l o rs w); (assumption || reflexivity)|]. unfold palt at 1.
  replace (direct_call _) with (Done r (DirectCall n) : ires stmt); [reflexivity|]. symmetry. unfold direct_call.
  destruct (tail_ok tl c (" "%char :: attrs_before l ++ rs ++ " "%char :: w) Ht Hc) as [u ->]. cbn [pbind].
  assert (C : palt (tag "call") (tag "invoke") (c ++ " "%char :: attrs_before l ++ rs ++ " "%char :: w) = Done (" "%char :: attrs_before l ++ rs ++ " "%char :: w) tt).
  { destruct Hc as [-> | ->]; [unfold palt; rewrite tag_ok; reflexivity|]. apply errs_palt; [eexists; apply tag_err; reflexivity | apply tag_ok]. }
  rewrite C. cbn [pbind]. rewrite space1_ok by exact (head_ns l o rs _ Hl Hr). cbn [pbind]. destruct (head_attrs l o rs w Hl Hr) as [u' ->]. cbn [pbind].
  rewrite (head_ret o rs w Hr Hw). cbn [pbind]. rewrite space1_ok by apply Hw. cbn [pbind]. unfold w. rewrite (function_ok n nm _ Hnm) by reflexivity. cbn [pbind].
  change (lit "(" ++ z ++ r) with ("("%char :: z ++ r). rewrite char_ok. cbn [pbind]. rewrite nle_ok by assumption. reflexivity.
Qed.
Theorem indirect_ok f s r : indirect_text f s -> at_eol r = true -> stmt_ (s ++ r) = Done r (IndirectCall f).
Proof.
  intros [sp a tl c l rs x args z Hn Hs Ha Ht Hc Hl Hr Hx Hargs Hz] He. rewrite <- !app_assoc.
  set (w := x ++ lit "(" ++ comma_list args ++ lit ")" ++ z ++ r).
  change (lit " " ++ attrs_before l ++ rs ++ lit " " ++ w) with (" "%char :: attrs_before l ++ rs ++ " "%char :: w).
  assert (Hw : callee_head w /\ starts_with (lit "asm") w = false /\ not_head (Ascii.eqb "b") w = true /\ not_head (Ascii.eqb "@") w = true).
  { unfold w. destruct (local_head x Hx) as [q ->]. repeat split; reflexivity. }
  destruct Hw as [Hw [W1 [W2 W3]]]. destruct (call_first tl c (" "%char :: attrs_before l ++ rs ++ " "%char :: w) Ht Hc) as [F1 F2].
  apply stmt_calls; try assumption. unfold calls. apply errs_palt; [apply (asm_errs tl c l (output f) rs w); assumption|].
  apply errs_palt; [apply (bitcast_call_errs tl c l (output f) rs w); assumption|]. apply errs_palt; [apply (direct_call_errs tl c l (output f) rs w); assumption|]. unfold palt at 1.
  replace (indirect_call _) with (Done r (IndirectCall f) : ires stmt); [reflexivity|]. symmetry. unfold indirect_call.
  destruct (tail_ok tl c (" "%char :: attrs_before l ++ rs ++ " "%char :: w) Ht Hc) as [u ->]. cbn [pbind].
  assert (Hca : Forall attr_text (c :: l)).
  { constructor; [|exact Hl]. destruct Hc as [-> | ->]; (apply at_word; [discriminate | reflexivity|]); intros X; cbn in X; repeat destruct X as [X|X]; discriminate || contradiction. }
  destruct (head_attrs (c :: l) (output f) rs w Hca Hr) as [u' E]. cbn [attrs_before] in E. rewrite <- !app_assoc in E.
  change (lit " " ++ attrs_before l ++ rs ++ " "%char :: w) with (" "%char :: attrs_before l ++ rs ++ " "%char :: w) in E. rewrite E. cbn [pbind].
  rewrite (head_ret (output f) rs w Hr Hw). cbn [pbind]. rewrite space1_ok by apply Hw. cbn [pbind]. unfold w. rewrite (local_ok x _ Hx) by reflexivity. cbn [pbind].
  unfold delimited. change (lit "(" ++ comma_list args ++ lit ")" ++ z ++ r) with ("("%char :: comma_list args ++ ")"%char :: z ++ r). rewrite char_ok. cbn [pbind].
  rewrite (args_ok (inputs f) args (z ++ r) Hargs). cbn [pbind]. rewrite char_ok. cbn [pbind]. rewrite nle_ok by assumption. cbn [pbind]. destruct f. reflexivity.
Qed.
Theorem bitcast_call_ok n s r : bitcast_text n s -> at_eol r = true -> stmt_ (s ++ r) = Done r (BitcastCall (Some n)).
Proof.
  intros [sp a tl l o rs t s0 nm t' s' z Hn Hs Ha Ht Hl Hr Ht0 Hv0 Hnm Hnd Ht' Hv' Hz] He. rewrite <- !app_assoc.
  set (w := lit "bitcast (" ++ s0 ++ lit " " ++ (lit "@" ++ nm) ++ lit " to " ++ s' ++ ")"%char :: z ++ r).
  change (lit "call " ++ attrs_before l ++ rs ++ lit " bitcast (" ++ s0 ++ lit " @" ++ nm ++ lit " to " ++ s' ++ lit ")" ++ z ++ r)
    with (lit "call" ++ " "%char :: attrs_before l ++ rs ++ " "%char :: w).
  assert (Hw : callee_head w) by (split; reflexivity). destruct (call_first tl (lit "call") (" "%char :: attrs_before l ++ rs ++ " "%char :: w) Ht (or_introl eq_refl)) as [F1 F2].
  apply stmt_calls; try assumption. unfold calls. apply errs_palt; [apply (asm_errs tl (lit "call") l o rs w); (assumption || reflexivity || (left; reflexivity))|].
  unfold palt at 1. replace (bitcast_call _) with (Done r (BitcastCall (Some n)) : ires stmt); [reflexivity|]. symmetry. unfold bitcast_call.
  destruct (tail_ok tl (lit "call") (" "%char :: attrs_before l ++ rs ++ " "%char :: w) Ht (or_introl eq_refl)) as [u ->]. cbn [pbind]. rewrite tag_ok. cbn [pbind].
  rewrite space1_ok by exact (head_ns l o rs _ Hl Hr). cbn [pbind]. destruct (head_attrs l o rs w Hl Hr) as [u' ->]. cbn [pbind].
  rewrite (head_ret o rs w Hr Hw). cbn [pbind]. rewrite space1_ok by apply Hw. cbn [pbind].
  destruct (bitcast_ok t s0 (lit "@" ++ nm) t' s' (z ++ r) Ht0 Hv0 (or_introl (gl_name n nm Hnm)) Ht' Hv') as [x [Ex Ho]].
  unfold w. rewrite Ex. cbn [pbind]. rewrite (Ho n nm eq_refl Hnm Hnd). rewrite nle_ok by assumption. reflexivity.
Qed.
Lemma words_before ws y : Forall ident_text ws -> not_head s_space y = true -> not_head s_ident y = true ->
  forall n, (length (attrs_before ws ++ y) < n)%nat -> exists u, many0_loop n (fun i => let? (i, _u) := ident i in space1 i) (attrs_before ws ++ y) = Done y u.
Proof.
  intros H Hs Hi. assert (NS : forall ws, Forall ident_text ws -> not_head s_space (attrs_before ws ++ y) = true).
  { clear ws H. intros ws [|w ws' [Hn [Hw _]] _]; [exact Hs|]. cbn [attrs_before]. rewrite <- app_assoc, not_head_app by exact Hn. destruct w as [|c w]; [contradiction|].
    unfold all in Hw. cbn in Hw. apply andb_true_iff in Hw. destruct Hw as [Hw _]. cbn [not_head]. destruct (s_space c) eqn:E; [|reflexivity]. apply space_not_ident in E. congruence. }
  induction H as [|w ws Hw H IH]; intros n L; (destruct n as [|n]; [lia|]); cbn [attrs_before many0_loop app].
  - rewrite ident_err by exact Hi. eexists. reflexivity.
  - cbn [attrs_before] in L. rewrite <- !app_assoc in *. rewrite (ident_ok w _ Hw) by reflexivity. cbn [pbind]. change (lit " " ++ attrs_before ws ++ y) with (" "%char :: attrs_before ws ++ y) in *.
    rewrite space1_ok by (apply NS; exact H). rewrite app_length in L. cbn [length] in L.
    destruct (Nat.eqb_spec (length (attrs_before ws ++ y)) (length (w ++ " "%char :: attrs_before ws ++ y))) as [E|_]; [rewrite (app_length w) in E; cbn [length] in E; lia|].
    destruct (IH n) as [u Hu]; [lia|]. rewrite Hu. eexists. reflexivity.
Qed.
Theorem asm_ok code s r : asm_text code s -> at_eol r = true -> stmt_ (s ++ r) = Done r (Asm code).
Proof.
  intros [sp a tl o rs ws z Hn Hs Ha Ht Hr Hws Hc Hz] He. rewrite <- !app_assoc.
  set (y := dquote :: code ++ dquote :: z ++ r).
  change (lit "call " ++ rs ++ lit " asm " ++ attrs_before ws ++ [dquote] ++ code ++ [dquote] ++ z ++ r) with (lit "call" ++ " "%char :: rs ++ " "%char :: lit "asm" ++ " "%char :: attrs_before ws ++ y).
  destruct (call_first tl (lit "call") (" "%char :: rs ++ " "%char :: lit "asm" ++ " "%char :: attrs_before ws ++ y) Ht (or_introl eq_refl)) as [F1 F2].
  apply stmt_calls; try assumption. unfold calls. unfold palt at 1. replace (asm _) with (Done r (Asm code) : ires stmt); [reflexivity|]. symmetry. unfold asm.
  destruct (tail_ok tl (lit "call") (" "%char :: rs ++ " "%char :: lit "asm" ++ " "%char :: attrs_before ws ++ y) Ht (or_introl eq_refl)) as [u ->]. cbn [pbind]. rewrite tag_ok. cbn [pbind].
  rewrite space1_ok by exact (ret_ns o rs _ Hr). cbn [pbind]. rewrite (head_ret o rs _ Hr) by (split; reflexivity). cbn [pbind]. rewrite space1_ok by reflexivity. cbn [pbind].
  rewrite tag_ok. cbn [pbind]. assert (NS : not_head s_space (attrs_before ws ++ y) = true).
  { destruct Hws as [|w ws [Hnw [Hw _]] _]; [reflexivity|]. cbn [attrs_before]. rewrite <- app_assoc, not_head_app by exact Hnw. destruct w as [|c w]; [contradiction|].
    unfold all in Hw. cbn in Hw. apply andb_true_iff in Hw. destruct Hw as [Hw _]. cbn [not_head]. destruct (s_space c) eqn:E; [|reflexivity]. apply space_not_ident in E. congruence. }
  rewrite space1_ok by exact NS. cbn [pbind]. destruct (words_before ws y Hws eq_refl eq_refl _ (Nat.lt_succ_diag_r _)) as [u' E]. unfold many0. rewrite E. cbn [pbind].
  unfold y. rewrite string_ok by exact Hc. cbn [pbind]. rewrite nle_ok by assumption. reflexivity.
Qed.
