(** Statements are lines (C32), and no call is recorded as something else. *)
From Verif Require Import M_base M_nom M_ty M_parse S_ir L_base L_nom L_ir1 L_ir2 L_ir3.

Lemma not_line_ending_inv i r a : not_line_ending i = Done r a -> i = a ++ r /\ forallb (fun c => negb (is_eol c)) a = true /\ at_eol r = true.
Proof.
  unfold not_line_ending. destruct (span (fun c => negb (is_eol c)) i) as [x y] eqn:Es. destruct (span_forall _ _ _ _ Es) as [H1 H2]. pose proof (span_app _ _ _ _ Es) as Ei.
  destruct y as [|c y]; [intros E; injection E as <- <-; repeat split; assumption|].
  unfold not_head in H2. rewrite negb_involutive in H2. unfold is_eol in H2. cbn [at_eol]. change "010"%char with LF. change "013"%char with CR.
  destruct (Ascii.eqb c CR) eqn:Ec.
  - destruct y as [|d y]; [discriminate|]. destruct (Ascii.eqb d LF) eqn:Ed; [|discriminate]. intros E. injection E as <- <-. repeat split; [exact Ei | exact H1|].
    cbn [at_eol]. change "010"%char with LF. change "013"%char with CR. rewrite Ec, Ed, orb_true_r. reflexivity.
  - intros E. injection E as <- <-. repeat split; [exact Ei | exact H1|]. cbn [at_eol]. change "010"%char with LF. change "013"%char with CR.
    cbn [orb] in H2. rewrite H2. reflexivity.
Qed.
(** * What parsers take *)
Section taken.
(** A property of texts that holds of characters other than line ends and quotes, and of strings, and that is closed under
    concatenation. *)
Variable clean : str -> Prop.
Hypothesis clean_nil : clean [].
Hypothesis clean_app : forall a b, clean a -> clean b -> clean (a ++ b).
Hypothesis clean_char : forall c, c <> LF -> c <> CR -> c <> dquote -> clean [c].
Hypothesis clean_string : forall x, ~ In dquote x -> clean (dquote :: x ++ [dquote]).
Lemma clean_class p w : p LF = false -> p CR = false -> p dquote = false -> forallb p w = true -> clean w.
Proof.
  intros Hp Hr Hq. induction w as [|c w IH]; intros H; [exact clean_nil|]. cbn in H. apply andb_true_iff in H. destruct H as [Hc Hw].
  apply (clean_app [c] w); [|exact (IH Hw)]. apply clean_char; intros ->; congruence.
Qed.
Definition special (c : ascii) : bool := Ascii.eqb LF c || Ascii.eqb CR c || Ascii.eqb dquote c.
Lemma clean_literal w : existsb special w = false -> clean w.
Proof.
  intros H. apply (clean_class (fun c => negb (special c))); [reflexivity | reflexivity | reflexivity|].
  induction w as [|c w IH]; [reflexivity|]. cbn [existsb] in H. apply orb_false_iff in H. destruct H as [H1 H2]. cbn [forallb]. rewrite H1. exact (IH H2).
Qed.

Definition cl {A} (p : parser A) : Prop := forall i r a, p i = Done r a -> exists w, i = w ++ r /\ clean w.
Lemma cl_bind {A B} (p : parser A) (f : A -> parser B) : cl p -> (forall a, cl (f a)) -> cl (fun i => pbind (p i) (fun i a => f a i)).
Proof.
  intros Hp Hf i r b E. pinv E. destruct (Hp _ _ _ E0) as [w [-> Cw]]. destruct (Hf _ _ _ _ E) as [w2 [-> C2]]. exists (w ++ w2).
  rewrite app_assoc. split; [reflexivity | apply clean_app; assumption].
Qed.
Lemma cl_done {A} (x : A) : cl (fun i => Done i x).
Proof. intros i r a E. injection E as <- <-. exists []. split; [reflexivity | exact clean_nil]. Qed.
Lemma cl_pmap {A B} (p : parser A) (f : A -> B) : cl p -> cl (pmap p f).
Proof. intros H. apply cl_bind; [exact H|]. intros a. apply cl_done. Qed.
Lemma cl_pmap_res {A B} (p : parser A) (f : A -> option B) : cl p -> cl (pmap_res p f).
Proof. intros H i r b E. unfold pmap_res in E. pinv E. destruct (f a); [|discriminate]. injection E as <- <-. exact (H _ _ _ E0). Qed.
Lemma cl_popt {A} (p : parser A) : cl p -> cl (popt p).
Proof.
  intros H i r b E. unfold popt in E. destruct (p i) as [j a|x|x|] eqn:Ep; try discriminate; injection E as <- <-.
  - exact (H _ _ _ Ep).
  - exists []. split; [reflexivity | exact clean_nil].
Qed.
Lemma cl_palt {A} (p q : parser A) : cl p -> cl q -> cl (palt p q).
Proof. intros Hp Hq i r a E. unfold palt in E. destruct (p i) eqn:Ep; try discriminate; [|exact (Hq _ _ _ E)]. injection E as <- <-. exact (Hp _ _ _ Ep). Qed.
Lemma cl_many0_loop {A} n (p : parser A) : cl p -> cl (many0_loop n p).
Proof.
  intros H. induction n as [|n IH]; intros i r l E; [discriminate|]. cbn [many0_loop] in E. destruct (p i) as [j a|x|x|] eqn:Ep; try discriminate.
  - destruct (length j =? length i)%nat; [discriminate|]. pinv E. injection E as <- <-. destruct (H _ _ _ Ep) as [w [-> Cw]].
    destruct (IH _ _ _ E0) as [w2 [-> C2]]. exists (w ++ w2). rewrite app_assoc. split; [reflexivity | apply clean_app; assumption].
  - injection E as <- <-. exists []. split; [reflexivity | exact clean_nil].
Qed.
Lemma cl_many0 {A} (p : parser A) : cl p -> cl (many0 p).
Proof. intros H i. apply cl_many0_loop. exact H. Qed.
Lemma cl_many1 {A} (p : parser A) : cl p -> cl (many1 p).
Proof.
  intros H i r l E. unfold many1 in E. pinv E. pinv E. injection E as <- <-. destruct (H _ _ _ E0) as [w [-> Cw]].
  destruct (cl_many0_loop _ p H _ _ _ E1) as [w2 [-> C2]]. exists (w ++ w2). rewrite app_assoc. split; [reflexivity | apply clean_app; assumption].
Qed.
Lemma cl_sep_loop {S A} n (sep : parser S) (p : parser A) : cl sep -> cl p -> cl (sep_loop n sep p).
Proof.
  intros Hs H. induction n as [|n IH]; intros i r l E; [discriminate|]. cbn [sep_loop] in E. destruct (sep i) as [j u|x|x|] eqn:Es; try discriminate.
  - destruct (length j =? length i)%nat; [discriminate|]. destruct (p j) as [k a|x|x|] eqn:Ep; try discriminate.
    + pinv E. injection E as <- <-. destruct (Hs _ _ _ Es) as [w [-> Cw]]. destruct (H _ _ _ Ep) as [w2 [-> C2]]. destruct (IH _ _ _ E0) as [w3 [-> C3]].
      exists (w ++ w2 ++ w3). rewrite <- !app_assoc. split; [reflexivity | repeat apply clean_app; assumption].
    + injection E as <- <-. exists []. split; [reflexivity | exact clean_nil].
  - injection E as <- <-. exists []. split; [reflexivity | exact clean_nil].
Qed.
Lemma cl_sep0 {S A} (sep : parser S) (p : parser A) : cl sep -> cl p -> cl (separated_list0 sep p).
Proof.
  intros Hs H i r l E. unfold separated_list0 in E. destruct (p i) as [j a|x|x|] eqn:Ep; try discriminate.
  - pinv E. injection E as <- <-. destruct (H _ _ _ Ep) as [w [-> Cw]]. destruct (cl_sep_loop _ sep p Hs H _ _ _ E0) as [w2 [-> C2]].
    exists (w ++ w2). rewrite app_assoc. split; [reflexivity | apply clean_app; assumption].
  - injection E as <- <-. exists []. split; [reflexivity | exact clean_nil].
Qed.
Lemma cl_sep1 {S A} (sep : parser S) (p : parser A) : cl sep -> cl p -> cl (separated_list1 sep p).
Proof.
  intros Hs H i r l E. unfold separated_list1 in E. pinv E. pinv E. injection E as <- <-. destruct (H _ _ _ E0) as [w [-> Cw]].
  destruct (cl_sep_loop _ sep p Hs H _ _ _ E1) as [w2 [-> C2]]. exists (w ++ w2). rewrite app_assoc. split; [reflexivity | apply clean_app; assumption].
Qed.
Lemma cl_tag t : existsb special (lit t) = false -> cl (tag t).
Proof.
  intros H i r a E. unfold tag in E. destruct (strip_prefix (lit t) i) eqn:Es; [|discriminate]. injection E as <- <-. apply L_base.strip_prefix_app in Es.
  exists (lit t). split; [exact Es | apply clean_literal; exact H].
Qed.
Lemma cl_char c : special c = false -> cl (char c).
Proof.
  intros H i r a E. unfold char in E. destruct i as [|x i]; [discriminate|]. destruct (Ascii.eqb_spec x c) as [->|_]; [|discriminate]. injection E as <- <-.
  exists [c]. split; [reflexivity|]. apply clean_literal. cbn [existsb]. rewrite H. reflexivity.
Qed.
Lemma cl_take_while1 p : p LF = false -> p CR = false -> p dquote = false -> cl (take_while1 p).
Proof. intros H H2 H' i r a E. apply take_while1_inv in E. destruct E as [-> [_ [Ha _]]]. exists a. split; [reflexivity | exact (clean_class p a H H2 H' Ha)]. Qed.
Lemma cl_space1 : cl space1. Proof. apply cl_take_while1; reflexivity. Qed.
Lemma cl_digit1 : cl digit1. Proof. apply cl_take_while1; reflexivity. Qed.
Lemma cl_space0 : cl space0.
Proof.
  intros i r a E. unfold space0, take_while0 in E. destruct (span is_space i) as [x y] eqn:Es. injection E as <- <-.
  destruct (span_forall _ _ _ _ Es) as [H _]. exists x. split; [exact (span_app _ _ _ _ Es) | exact (clean_class is_space x eq_refl eq_refl eq_refl H)].
Qed.
Lemma cl_string : cl string_.
Proof.
  intros i r a E. unfold string_ in E. pinv E. pinv E. pinv E. injection E as <- <-.
  assert (Q : forall i j (u : unit), char dquote i = Done j u -> i = dquote :: j).
  { clear. intros i j u E. unfold char in E. destruct i as [|x i]; [discriminate|]. destruct (Ascii.eqb_spec x dquote) as [->|_]; [|discriminate]. injection E as ->. reflexivity. }
  apply Q in E0. apply Q in E2. unfold take_until in E1. destruct (span (fun x => negb (Ascii.eqb x dquote)) i0) as [x y] eqn:Es. pose proof (span_forall _ _ _ _ Es) as [Hx _]. apply span_app in Es.
  destruct y as [|c y]; [discriminate|]. injection E1 as <- <-. exists (dquote :: x ++ [dquote]). split; [rewrite E0, Es, E2; cbn [app]; rewrite <- app_assoc; reflexivity|].
  apply clean_string. intros Hin. rewrite forallb_forall in Hx. specialize (Hx _ Hin). discriminate.
Qed.
Lemma cl_delimited {A B C} (p : parser A) (q : parser B) (r : parser C) : cl p -> cl q -> cl r -> cl (delimited p q r).
Proof. intros Hp Hq Hr. unfold delimited. apply cl_bind; [exact Hp|]. intros a. apply cl_bind; [exact Hq|]. intros b. apply cl_bind; [exact Hr|]. intros c. apply cl_done. Qed.
Create HintDb cl.
#[local] Hint Resolve cl_string cl_space1 cl_space0 cl_digit1 cl_done : cl.
Ltac cl_go := repeat (first [assumption | solve [auto 2 with cl nocore] | apply cl_palt | apply cl_pmap | apply cl_pmap_res | apply cl_popt | apply cl_many0 | apply cl_many1
  | apply cl_sep0 | apply cl_sep1 | apply cl_delimited | apply cl_char; reflexivity | apply cl_tag; reflexivity | apply cl_take_while1; reflexivity | apply cl_bind; [|intros ?]]).
Lemma cl_ident : cl ident.
Proof. unfold ident. cl_go. Qed.
#[local] Hint Resolve cl_ident : cl.
Lemma cl_count : cl count.
Proof. unfold count. cl_go. Qed.
#[local] Hint Resolve cl_count : cl.
Lemma cl_name : cl name.
Proof. unfold name. cl_go. Qed.
#[local] Hint Resolve cl_name : cl.
Lemma cl_function : cl function.
Proof. unfold function. cl_go. Qed.
#[local] Hint Resolve cl_function : cl.
Lemma cl_alias : cl alias.
Proof. unfold alias. cl_go. Qed.
#[local] Hint Resolve cl_alias : cl.
Lemma cl_global : cl global.
Proof. unfold global. cl_go. Qed.
#[local] Hint Resolve cl_global : cl.
Lemma cl_local : cl local.
Proof. unfold local. cl_go. Qed.
#[local] Hint Resolve cl_local : cl.
Lemma cl_comma : cl comma.
Proof. unfold comma. cl_go. Qed.
#[local] Hint Resolve cl_comma : cl.
Lemma cl_counted : forall rec f, cl rec -> cl (counted rec f).
Proof. intros rec f H. unfold counted. cl_go. Qed.
#[local] Hint Resolve cl_counted : cl.
Lemma cl_struct_body : forall rec, cl rec -> cl (struct_body rec).
Proof. intros rec H. unfold struct_body. cl_go. Qed.
#[local] Hint Resolve cl_struct_body : cl.
Lemma cl_fn_inputs : forall rec, cl rec -> cl (fn_inputs rec).
Proof. intros rec H. unfold fn_inputs. cl_go. Qed.
#[local] Hint Resolve cl_fn_inputs : cl.
Lemma cl_fn_suffix : forall rec, cl rec -> cl (fn_suffix rec).
Proof. intros rec H. unfold fn_suffix. cl_go. Qed.
#[local] Hint Resolve cl_fn_suffix : cl.
Lemma cl_base : forall rec, cl rec -> cl (base rec).
Proof. intros rec H. unfold base, array, mvt_vector, packed_struct, struct_, type_alias, integer. cl_go. Qed.
#[local] Hint Resolve cl_base : cl.
Lemma stars_clean i : forall t r u, stars i t = (r, u) -> exists w, i = w ++ r /\ clean w.
Proof.
  induction i as [|c i IH]; intros t r u E; cbn [stars] in E.
  - injection E as <- <-. exists []. split; [reflexivity | exact clean_nil].
  - destruct (Ascii.eqb_spec c "*") as [->|_]; [|injection E as <- <-; exists []; split; [reflexivity | exact clean_nil]].
    destruct (IH _ _ _ E) as [w [-> Cw]]. exists ("*"%char :: w). split; [reflexivity|]. apply (clean_app ["*"%char] w); [|exact Cw]. apply clean_literal. reflexivity.
Qed.
Lemma cl_fn_loop rec : cl rec -> forall n i t r u, fn_loop n rec i t = Done r u -> exists w, i = w ++ r /\ clean w.
Proof.
  intros H. induction n as [|n IH]; intros i t r u E; [discriminate|]. cbn [fn_loop] in E. unfold popt in E.
  destruct (fn_suffix rec i) as [i1 ins|x|x|] eqn:Es; try discriminate; cbn [pbind] in E.
  - destruct (stars i1 (TFn ins (Some t))) as [i2 t2] eqn:E2. destruct (cl_fn_suffix rec H _ _ _ Es) as [w [-> Cw]].
    destruct (stars_clean _ _ _ _ E2) as [w2 [-> C2]]. destruct (IH _ _ _ _ E) as [w3 [-> C3]]. exists (w ++ w2 ++ w3). rewrite <- !app_assoc.
    split; [reflexivity | repeat apply clean_app; assumption].
  - injection E as <- <-. exists []. split; [reflexivity | exact clean_nil].
Qed.
Lemma cl_type_f n : cl (type_f n).
Proof.
  induction n as [|n IH]; intros i r t E; [discriminate|]. cbn [type_f] in E. unfold type_body in E. pinv E.
  destruct (cl_popt (tag "void") (cl_tag "void" eq_refl) _ _ _ E0) as [w [Ew Cw]]. destruct a as [u|].
  - pinv E. pinv E. destruct (stars i2 (TFn a0 None)) as [i3 t3] eqn:E3. injection E as <- <-. destruct (cl_space1 _ _ _ E1) as [w1 [-> C1]].
    destruct (cl_fn_inputs _ IH _ _ _ E2) as [w2 [-> C2]]. destruct (stars_clean _ _ _ _ E3) as [w3 [-> C3]]. exists (w ++ w1 ++ w2 ++ w3).
    rewrite Ew, <- !app_assoc. split; [reflexivity | repeat apply clean_app; assumption].
  - pinv E. destruct (stars i1 a) as [i3 t3] eqn:E3. destruct (cl_base _ IH _ _ _ E1) as [w1 [-> C1]]. destruct (stars_clean _ _ _ _ E3) as [w2 [-> C2]].
    destruct (cl_fn_loop _ IH _ _ _ _ _ E) as [w3 [-> C3]]. exists (w ++ w1 ++ w2 ++ w3).
    rewrite Ew, <- !app_assoc. split; [reflexivity | repeat apply clean_app; assumption].
Qed.
Lemma cl_type : cl type_. Proof. intros i. apply cl_type_f. Qed.
#[local] Hint Resolve cl_type : cl.
Lemma cl_attribute : cl attribute.
Proof.
  unfold attribute. apply cl_bind; [apply cl_take_while1; reflexivity|]. intros a.
  repeat match goal with |- context [word_in a ?l] => destruct (word_in a l) end; cl_go; intros i r b E; discriminate.
Qed.
#[local] Hint Resolve cl_attribute : cl.
Lemma cl_attr_sp : cl attr_sp.
Proof. unfold attr_sp. cl_go. Qed.
#[local] Hint Resolve cl_attr_sp : cl.
Lemma cl_getelementptr : cl getelementptr.
Proof. unfold getelementptr, gep_body, gep_index. cl_go. Qed.
#[local] Hint Resolve cl_getelementptr : cl.
Lemma cl_bitcast : cl bitcast.
Proof. unfold bitcast, bitcast_body. cl_go. Qed.
#[local] Hint Resolve cl_bitcast : cl.
Lemma cl_ret_ty : cl ret_ty.
Proof. unfold ret_ty. cl_go. Qed.
#[local] Hint Resolve cl_ret_ty : cl.
Lemma cl_value : cl value.
Proof. unfold value, drop, int_const. cl_go. Qed.
#[local] Hint Resolve cl_value : cl.
Lemma cl_argument : cl argument.
Proof. unfold argument. cl_go. Qed.
#[local] Hint Resolve cl_argument : cl.
(** The parts of an indirect call before the callee. *)
Definition before_callee : parser unit :=
  fun i => let? (i, _a) := popt tail_sp i in
           let? (i, _b) := many0 attr_sp i in
           let? (i, out) := ret_ty i in
           let? (i, _c) := space1 i in
           Done i tt.
Lemma cl_before_callee : cl before_callee.
Proof. unfold before_callee, tail_sp. cl_go. Qed.
Section with_line_ends.
Hypothesis clean_quote : clean [dquote].
Lemma cl_not_line_ending : cl not_line_ending.
Proof. intros i r a E. apply not_line_ending_inv in E. destruct E as [-> [H _]]. exists a. split; [reflexivity|].
  clear r. induction a as [|c a IH]; [exact clean_nil|]. cbn in H. apply andb_true_iff in H. destruct H as [Hc Ha]. apply (clean_app [c] a); [|exact (IH Ha)].
  destruct (Ascii.eqb_spec c dquote) as [->|Hq]; [exact clean_quote|]. apply clean_char; [| |exact Hq]; intros ->; discriminate.
Qed.
#[local] Hint Resolve cl_not_line_ending : cl.
Lemma cl_comment : cl comment.
Proof. unfold comment. cl_go. Qed.
#[local] Hint Resolve cl_comment : cl.
Lemma cl_asm : cl asm.
Proof. unfold asm, tail_sp. cl_go. Qed.
#[local] Hint Resolve cl_asm : cl.
Lemma cl_bitcast_call : cl bitcast_call.
Proof. unfold bitcast_call, tail_sp. cl_go. Qed.
#[local] Hint Resolve cl_bitcast_call : cl.
Lemma cl_direct_call : cl direct_call.
Proof. unfold direct_call, tail_sp. cl_go. Qed.
#[local] Hint Resolve cl_direct_call : cl.
Lemma cl_indirect_call : cl indirect_call.
Proof. unfold indirect_call, tail_sp. cl_go. Qed.
#[local] Hint Resolve cl_indirect_call : cl.
Lemma cl_line p : p LF = false -> p CR = false -> cl (take_while1 p).
Proof.
  intros Hp Hp2 i r a E. apply take_while1_inv in E. destruct E as [-> [_ [Ha _]]]. exists a. split; [reflexivity|].
  clear r. induction a as [|c a IH]; [exact clean_nil|]. cbn in Ha. apply andb_true_iff in Ha. destruct Ha as [Hc Ha]. apply (clean_app [c] a); [|exact (IH Ha)].
  destruct (Ascii.eqb_spec c dquote) as [->|Hq]; [exact clean_quote|]. apply clean_char; [| |exact Hq]; intros ->; congruence.
Qed.
Lemma cl_other : cl other.
Proof. unfold other. cl_go. apply cl_line; reflexivity. Qed.
#[local] Hint Resolve cl_other : cl.
Lemma cl_assign : cl assign.
Proof. unfold assign. cl_go. Qed.
#[local] Hint Resolve cl_assign : cl.
Lemma cl_stmt : cl stmt_.
Proof. unfold stmt_, label, stmt_comment, drop. cl_go. Qed.
#[local] Hint Resolve cl_stmt : cl.
End with_line_ends.
End taken.

(** Text without line feeds, except within quotes. *)
Definition clean (w : str) : Prop := In LF w -> In dquote w.
Lemma clean_app' a b : clean a -> clean b -> clean (a ++ b).
Proof. intros Ha Hb H. apply in_app_or in H. apply in_or_app. destruct H as [H|H]; [left; apply Ha, H | right; apply Hb, H]. Qed.
Lemma clean_stmt : cl clean stmt_.
Proof.
  apply (cl_stmt clean).
  - intros [].
  - exact clean_app'.
  - intros c Hc _ _ [X|[]]. congruence.
  - intros x _ _. left. reflexivity.
  - intros _. left. reflexivity.
Qed.
(** Text in which quotes come in pairs and line ends occur only within them. *)
Inductive tokens : str -> Prop :=
| to_nil : tokens []
| to_char c s : c <> LF -> c <> CR -> c <> dquote -> tokens s -> tokens (c :: s)
| to_string x s : ~ In dquote x -> tokens s -> tokens (dquote :: x ++ dquote :: s).
Lemma tokens_app a b : tokens a -> tokens b -> tokens (a ++ b).
Proof.
  intros Ha Hb. induction Ha as [|c s H1 H2 H3 Ha IH|x s H Ha IH]; [exact Hb | apply to_char; assumption|]. cbn [app]. rewrite <- app_assoc. cbn [app]. apply to_string; assumption.
Qed.
Lemma tokens_char c : c <> LF -> c <> CR -> c <> dquote -> tokens [c].
Proof. intros H1 H2 H3. apply to_char; [exact H1 | exact H2 | exact H3 | constructor]. Qed.
Lemma tokens_string x : ~ In dquote x -> tokens (dquote :: x ++ [dquote]).
Proof. intros H. apply to_string; [exact H | constructor]. Qed.
Lemma tokens_before_callee : cl tokens before_callee.
Proof. apply (cl_before_callee tokens to_nil tokens_app tokens_char tokens_string). Qed.
Lemma tokens_local : cl tokens local.
Proof. apply (cl_local tokens to_nil tokens_app tokens_char). Qed.
