(** Types: printing and parsing (C30), matching (C31). *)
From Coq Require DecimalPos DecimalN DecimalFacts.
From Verif Require Import M_base M_nom M_ty M_parse S_ir L_base L_nom L_ir1.

(** * Numerals *)
Lemma uint_digits d : all s_digit (uint_str d).
Proof. unfold all. induction d; cbn [uint_str forallb]; [reflexivity| | | | | | | | | |]; rewrite IHd; reflexivity. Qed.
Lemma uint_nonnil d : d <> Decimal.Nil -> uint_str d <> [].
Proof. destruct d; intros H; [contradiction | | | | | | | | | |]; discriminate. Qed.
Lemma value_of_acc d : forall acc, fold_left (fun a c => (a * 10 + (N_of_ascii c - 48))%N) (uint_str d) (N.pos acc) = N.pos (Pos.of_uint_acc d acc).
Proof.
  induction d; intros acc; cbn [uint_str fold_left Pos.of_uint_acc]; [reflexivity| | | | | | | | | |]; rewrite <- IHd; f_equal.
  all: change (N_of_ascii _ - 48)%N with 0%N || idtac.
  all: vm_compute (N_of_ascii _); lia.
Qed.
Lemma value_of_uint d : value_of (uint_str d) = N.of_uint d.
Proof.
  unfold value_of, N.of_uint. induction d; cbn [uint_str fold_left Pos.of_uint]; [reflexivity| | | | | | | | | |].
  - exact IHd.
  - exact (value_of_acc d 1).
  - exact (value_of_acc d 2).
  - exact (value_of_acc d 3).
  - exact (value_of_acc d 4).
  - exact (value_of_acc d 5).
  - exact (value_of_acc d 6).
  - exact (value_of_acc d 7).
  - exact (value_of_acc d 8).
  - exact (value_of_acc d 9).
Qed.
Lemma show_N_number n : (n < 2 ^ 64)%N -> number n (show_N n).
Proof.
  intros H. unfold show_N. split; [split|split].
  - apply uint_nonnil. destruct n as [|p]; [discriminate|]. cbn. apply DecimalPos.Unsigned.to_uint_nonnil.
  - apply uint_digits.
  - rewrite value_of_uint. apply DecimalN.Unsigned.of_to.
  - exact H.
Qed.

(** * Induction on types *)
Section ty_induction.
  Variable P : ty -> Prop.
  Hypothesis Halias : forall n, P (TAlias n).
  Hypothesis Harray : forall n t, P t -> P (TArray n t).
  Hypothesis Hdouble : P TDouble.
  Hypothesis Hfloat : P TFloat.
  Hypothesis Hint : forall n, P (TInt n).
  Hypothesis Hpacked : forall l, Forall P l -> P (TPacked l).
  Hypothesis Hstruct : forall l, Forall P l -> P (TStruct l).
  Hypothesis Hfn : forall l o, Forall P l -> match o with Some t => P t | None => True end -> P (TFn l o).
  Hypothesis Hptr : forall t, P t -> P (TPtr t).
  Hypothesis Hopaque : P TOpaque.
  Hypothesis Hvarargs : P TVarargs.
  Hypothesis Hvec : forall n t, P t -> P (TVec n t).
  Fixpoint ty_induct (t : ty) : P t :=
    let fix all (l : list ty) : Forall P l :=
      match l with [] => Forall_nil P | x :: l => Forall_cons x (ty_induct x) (all l) end in
    match t with
    | TAlias n => Halias n
    | TArray n t => Harray n t (ty_induct t)
    | TDouble => Hdouble
    | TFloat => Hfloat
    | TInt n => Hint n
    | TPacked l => Hpacked l (all l)
    | TStruct l => Hstruct l (all l)
    | TFn l o => Hfn l o (all l) (match o with Some t => ty_induct t | None => I end)
    | TPtr t => Hptr t (ty_induct t)
    | TOpaque => Hopaque
    | TVarargs => Hvarargs
    | TVec n t => Hvec n t (ty_induct t)
    end.
End ty_induction.

(** * Printing *)
Lemma commas_eq l : commas l = comma_list l.
Proof. reflexivity. Qed.
Lemma Forall2_show l : Forall (fun t => writable t = true -> ty_text t (show_ty t)) l -> forallb writable l = true ->
  Forall2 ty_text l (map show_ty l).
Proof.
  induction 1 as [|t l Ht H IH]; intros Hw; [constructor|]. cbn in Hw. apply andb_true_iff in Hw. destruct Hw as [H1 H2].
  cbn [map]. constructor; [apply Ht, H1 | apply IH, H2].
Qed.
Lemma show_text t : writable t = true -> ty_text t (show_ty t).
Proof.
  induction t as [n|n t IH| | |n|l IH|l IH|l o IHl IHo|t IH| | |n t IH] using ty_induct; intros Hw; cbn [writable] in Hw; cbn [show_ty].
  - apply (tx_alias n (dquote :: n ++ [dquote])). apply nt_quoted. intros Hin. apply negb_true_iff in Hw.
    assert (existsb (Ascii.eqb dquote) n = true); [|congruence]. apply existsb_exists. exists dquote. split; [exact Hin | apply Ascii.eqb_refl].
  - apply andb_true_iff in Hw. destruct Hw as [H1 H2]. apply N.ltb_lt in H1. apply tx_array; [apply show_N_number; exact H1 | apply IH, H2].
  - constructor.
  - constructor.
  - apply N.ltb_lt in Hw. apply tx_int. apply show_N_number. exact Hw.
  - pose proof (Forall2_show l IH Hw) as H. unfold show_struct. rewrite commas_eq.
    replace (lit "<" ++ (lit "{" ++ comma_list (map show_ty l) ++ match map show_ty l with [] => [] | _ => lit " " end ++ lit "}") ++ lit ">")
      with (lit "<{" ++ [] ++ comma_list (map show_ty l) ++ match map show_ty l with [] => [] | _ => lit " " end ++ lit "}>").
    + apply tx_packed; [exact H | reflexivity | destruct (map show_ty l); reflexivity].
    + rewrite <- !app_assoc. reflexivity.
  - pose proof (Forall2_show l IH Hw) as H. unfold show_struct. rewrite commas_eq.
    apply (tx_struct l (map show_ty l) [] (match map show_ty l with [] => [] | _ => lit " " end) H eq_refl). destruct (map show_ty l); reflexivity.
  - destruct o as [t|].
    + apply andb_true_iff in Hw. destruct Hw as [H1 H2]. cbn [option_map]. unfold show_fn. rewrite commas_eq.
      apply tx_fn; [apply Forall2_show; assumption | apply IHo, H2].
    + cbn [option_map]. unfold show_fn. rewrite commas_eq. change (lit "void" ++ lit " (" ++ ?x) with (lit "void (" ++ x).
      apply tx_fn_void. apply Forall2_show; assumption.
  - apply tx_ptr, IH, Hw.
  - constructor.
  - constructor.
  - apply andb_true_iff in Hw. destruct Hw as [H1 H2]. apply N.ltb_lt in H1. apply tx_vec; [apply show_N_number; exact H1 | apply IH, H2].
Qed.
Lemma print_parse t rest : writable t = true -> void_ok t = true -> type_ends rest = true -> type_ (show_ty t ++ rest) = Done rest t.
Proof. intros Hw Hv He. apply type_text_ok; [apply show_text; exact Hw | exact Hv | exact He]. Qed.

(** Labels of signatures. *)
Definition sig_ty (s : fnsig) : ty := TFn (inputs s) (output s).
Lemma show_sig_ty s : show_sig s = show_ty (sig_ty s).
Proof. reflexivity. Qed.
Lemma sig_ty_writable s : sig_writable s = true -> writable (sig_ty s) = true.
Proof.
  unfold sig_writable, sig_ty. cbn [writable]. intros H. apply andb_true_iff in H. destruct H as [H1 H2].
  destruct (output s); [rewrite H1, H2; reflexivity | exact H1].
Qed.
(** The label of a signature is read back, in two steps if its return type is written `void ...`. *)
Lemma label_read s : sig_writable s = true -> sig_void_ok s = true ->
  (exists u, type_ (show_sig s) = Done [] u /\ u = sig_ty s /\ match output s with Some t => starts_void t | None => false end = false) \/
  (exists r t, type_ (show_sig s) = Done r t /\ output s = Some t /\ starts_void t = true /\ fn_suffix type_ r = Done [] (inputs s)).
Proof.
  intros Hw Hv. destruct s as [ins out]. unfold sig_void_ok in Hv. cbn [inputs output] in *. apply andb_true_iff in Hv. destruct Hv as [Hv1 Hv2].
  pose proof (sig_ty_writable _ Hw) as Hw'. rewrite show_sig_ty.
  destruct (match out with Some t => starts_void t | None => false end) eqn:Es.
  - right. destruct out as [t|]; [|discriminate]. unfold sig_ty in *. cbn [inputs output writable] in *. apply andb_true_iff in Hw'. destruct Hw' as [W1 W2].
    cbn [show_ty option_map]. unfold show_fn. rewrite commas_eq. pose proof (show_text t W2) as Tt.
    assert (Tl : Forall2 ty_text ins (map show_ty ins)).
    { apply Forall2_show; [|exact W1]. apply Forall_forall. intros x _. apply show_text. }
    exists (lit " (" ++ comma_list (map show_ty ins) ++ lit ")"), t. split; [|split; [reflexivity|split; [exact Es|]]].
    + unfold type_. pose proof (reads_all (show_ty t) t (length (show_ty t ++ lit " (" ++ comma_list (map show_ty ins) ++ lit ")"))
        (lit " (" ++ comma_list (map show_ty ins) ++ lit ")") Tt Hv2 (le_n _) eq_refl) as R. rewrite R, Es. reflexivity.
    + unfold fn_suffix. cbn [lit list_ascii_of_string app]. rewrite space1_ok by reflexivity. cbn [pbind].
      unfold fn_inputs. rewrite char_ok. cbn [pbind]. rewrite space0_none by (apply (comma_list_ns ins); [exact Tl | reflexivity]). cbn [pbind].
      rewrite (list_text type_ (fun r => type_ends r = true) (length (comma_list (map show_ty ins) ++ [")"%char])) [")"%char]
        ends_comma eq_refl eq_refl ins (map show_ty ins)).
      * reflexivity.
      * intros _. exact (type_head_err 1 [")"%char] eq_refl).
      * clear - Tl Hv1. generalize (length (comma_list (map show_ty ins) ++ [")"%char])). intros k. induction Tl as [|x y l l' Hx Hl IH]; [constructor|]. cbn in Hv1. apply andb_true_iff in Hv1. destruct Hv1 as [V1 V2].
        constructor; [|apply IH; exact V2]. destruct (ty_text_ns _ _ Hx) as [N E]. split; [exact N|split; [exact E|]].
        intros r _ Hr. apply type_text_ok; assumption.
      * lia.
  - left. exists (sig_ty {| inputs := ins; output := out |}). split; [|split; reflexivity].
    rewrite <- (app_nil_r (show_ty _)). apply print_parse; [exact Hw' | | reflexivity].
    unfold sig_ty. cbn [void_ok inputs output]. destruct out as [t|]; [rewrite Hv1, Hv2, Es; reflexivity | exact Hv1].
Qed.
Lemma label_inj s1 s2 : sig_writable s1 = true -> sig_void_ok s1 = true -> sig_writable s2 = true -> sig_void_ok s2 = true ->
  show_sig s1 = show_sig s2 -> s1 = s2.
Proof.
  intros W1 V1 W2 V2 E. destruct (label_read s1 W1 V1) as [[u1 [P1 [U1 O1]]]|[r1 [t1 [P1 [O1 [S1 F1]]]]]];
    destruct (label_read s2 W2 V2) as [[u2 [P2 [U2 O2]]]|[r2 [t2 [P2 [O2 [S2 F2]]]]]]; rewrite E, P2 in P1.
  - injection P1 as P1. rewrite U1, U2 in P1. destruct s1 as [i1 o1], s2 as [i2 o2]. unfold sig_ty in P1. cbn [inputs output] in P1. injection P1 as -> ->. reflexivity.
  - injection P1 as -> ->. discriminate.
  - injection P1 as <- <-. discriminate.
  - injection P1 as -> ->. rewrite F2 in F1. injection F1 as F1. destruct s1 as [i1 o1], s2 as [i2 o2]. cbn [inputs output] in *. subst. reflexivity.
Qed.

(** * Every type that the parser returns can be printed and parsed back *)
Definition post {A} (Q : A -> Prop) (p : parser A) : Prop := forall i r a, p i = Done r a -> Q a.
Ltac pinv H :=
  let i := fresh "i" in let a := fresh "a" in let E := fresh "E" in
  match type of H with pbind ?x _ = Done _ _ => destruct x as [i a|?|?|] eqn:E; cbn [pbind] in H; [|discriminate H..] end.
Lemma post_pmap {A B} (Q : B -> Prop) (p : parser A) f : post (fun a => Q (f a)) p -> post Q (pmap p f).
Proof. intros H i r a E. unfold pmap in E. pinv E. injection E as <- <-. exact (H _ _ _ E0). Qed.
Lemma post_palt {A} (Q : A -> Prop) (p q : parser A) : post Q p -> post Q q -> post Q (palt p q).
Proof. intros Hp Hq i r a E. unfold palt in E. destruct (p i) eqn:Ep; try discriminate; [|exact (Hq _ _ _ E)]. injection E as <- <-. exact (Hp _ _ _ Ep). Qed.
Lemma post_sep_loop {S A} (Q : A -> Prop) n (sep : parser S) (p : parser A) : post Q p -> post (Forall Q) (sep_loop n sep p).
Proof.
  intros H. induction n as [|n IH]; intros i r l E; [discriminate|]. cbn [sep_loop] in E.
  destruct (sep i) as [i1 u|e|e|]; try discriminate; [|injection E as <- <-; constructor].
  destruct (length i1 =? length i)%nat; [discriminate|]. destruct (p i1) as [i2 a|e|e|] eqn:Ep; try discriminate; [|injection E as <- <-; constructor].
  pinv E. injection E as <- <-. constructor; [exact (H _ _ _ Ep) | exact (IH _ _ _ E0)].
Qed.
Lemma post_separated_list0 {S A} (Q : A -> Prop) (sep : parser S) (p : parser A) : post Q p -> post (Forall Q) (separated_list0 sep p).
Proof.
  intros H i r l E. unfold separated_list0 in E. destruct (p i) as [i1 a|e|e|] eqn:Ep; try discriminate; [|injection E as <- <-; constructor].
  pinv E. injection E as <- <-. constructor; [exact (H _ _ _ Ep) | exact (post_sep_loop Q _ sep p H _ _ _ E0)].
Qed.
Lemma post_separated_list1 {S A} (Q : A -> Prop) (sep : parser S) (p : parser A) : post Q p -> post (Forall Q) (separated_list1 sep p).
Proof.
  intros H i r l E. unfold separated_list1 in E. pinv E. pinv E. injection E as <- <-.
  constructor; [exact (H _ _ _ E0) | exact (post_sep_loop Q _ sep p H _ _ _ E1)].
Qed.
Lemma post_delimited {A B C} (Q : B -> Prop) (p : parser A) (q : parser B) (r : parser C) : post Q q -> post Q (delimited p q r).
Proof. intros H i j b E. unfold delimited in E. pinv E. pinv E. pinv E. injection E as <- <-. exact (H _ _ _ E1). Qed.

Lemma span_forall p i : forall a b, span p i = (a, b) -> forallb p a = true /\ not_head p b = true.
Proof.
  induction i as [|c i IH]; intros a b E; cbn [span] in E.
  - injection E as <- <-. split; reflexivity.
  - destruct (p c) eqn:Ec.
    + destruct (span p i) as [a1 b1] eqn:Es. injection E as <- <-. destruct (IH _ _ eq_refl) as [H1 H2]. cbn. rewrite Ec. split; assumption.
    + injection E as <- <-. cbn. rewrite Ec. split; reflexivity.
Qed.
Lemma take_while1_inv p i r a : take_while1 p i = Done r a -> i = a ++ r /\ a <> [] /\ forallb p a = true /\ not_head p r = true.
Proof.
  unfold take_while1. destruct (span p i) as [x y] eqn:Es. destruct (span_forall _ _ _ _ Es) as [H1 H2]. pose proof (span_app _ _ _ _ Es) as Ei.
  destruct x as [|c x]; [discriminate|]. intros E. injection E as <- <-. repeat split; [exact Ei | discriminate | exact H1 | exact H2].
Qed.
Definition plain (n : str) : Prop := existsb (Ascii.eqb dquote) n = false.
Lemma plain_not_in n : (forall c, In c n -> c <> dquote) -> plain n.
Proof.
  intros H. unfold plain. destruct (existsb (Ascii.eqb dquote) n) eqn:E; [|reflexivity]. apply existsb_exists in E. destruct E as [c [Hc E]].
  apply Ascii.eqb_eq in E. subst c. exfalso. exact (H _ Hc eq_refl).
Qed.
Lemma plain_class p n : forallb p n = true -> p dquote = false -> plain n.
Proof. intros H Hp. apply plain_not_in. intros c Hc ->. rewrite forallb_forall in H. rewrite (H _ Hc) in Hp. discriminate. Qed.
Lemma name_plain : post plain name.
Proof.
  apply post_palt; [|apply post_palt].
  - intros i r a E. unfold string_ in E. pinv E. pinv E. pinv E. injection E as <- <-. unfold take_until in E1.
    destruct (span (fun x => negb (Ascii.eqb x dquote)) i0) as [x y] eqn:Es. destruct (span_forall _ _ _ _ Es) as [H _].
    destruct y; [discriminate|]. injection E1 as <- <-. exact (plain_class _ _ H eq_refl).
  - intros i r a E. unfold ident, pmap_res in E. pinv E. apply take_while1_inv in E0. destruct E0 as [_ [_ [H _]]].
    destruct (match a0 with c :: _ => is_digit c | [] => false end); [discriminate|]. injection E as <- <-. exact (plain_class _ _ H eq_refl).
  - intros i r a E. apply take_while1_inv in E. destruct E as [_ [_ [H _]]]. exact (plain_class _ _ H eq_refl).
Qed.
Lemma count_small : post (fun n => (n < 2 ^ 64)%N) count.
Proof.
  intros i r n E. unfold count, pmap_res in E. pinv E. unfold usize_from_str in E. destruct (digits_val a <? two64)%N eqn:L; [|discriminate].
  injection E as <- <-. apply N.ltb_lt. exact L.
Qed.
Definition fine (t : ty) : Prop := writable t = true /\ void_ok t = true.
Lemma fine_list l : Forall fine l -> forallb writable l = true /\ forallb void_ok l = true.
Proof.
  induction 1 as [|t l [H1 H2] H [IH1 IH2]]; [split; reflexivity|]. cbn. rewrite H1, H2, IH1, IH2. split; reflexivity.
Qed.
Lemma struct_body_fine rec : post fine rec -> post (Forall fine) (struct_body rec).
Proof.
  intros H i r l E. unfold struct_body in E. pinv E. pinv E. pinv E. pinv E. pinv E. injection E as <- <-.
  exact (post_separated_list0 fine comma rec H _ _ _ E2).
Qed.
Lemma fn_inputs_fine rec : post fine rec -> post (Forall fine) (fn_inputs rec).
Proof.
  intros H i r l E. unfold fn_inputs in E. pinv E. pinv E. pinv E. pinv E. injection E as <- <-.
  exact (post_separated_list0 fine comma rec H _ _ _ E2).
Qed.
Lemma counted_fine rec f : (forall n t, (n < 2 ^ 64)%N -> fine t -> fine (f n t)) -> post fine rec -> post fine (counted rec f).
Proof.
  intros Hf H i r t E. unfold counted in E. pinv E. pinv E. pinv E. pinv E. pinv E. injection E as <- <-.
  apply Hf; [exact (count_small _ _ _ E0) | exact (H _ _ _ E4)].
Qed.
Lemma fine_counted (f : N -> ty -> ty) n t : (forall n t, writable (f n t) = ((n <? 2 ^ 64)%N && writable t)) -> (forall n t, void_ok (f n t) = void_ok t) ->
  (n < 2 ^ 64)%N -> fine t -> fine (f n t).
Proof. intros H1 H2 L [W V]. split; [rewrite H1; apply N.ltb_lt in L; rewrite L, W; reflexivity | rewrite H2; exact V]. Qed.
Definition fine' (t : ty) : Prop := fine t /\ starts_void t = false.
Lemma base_fine rec : post fine rec -> post fine' (base rec).
Proof.
  intros H. unfold base. repeat apply post_palt.
  - apply post_delimited. intros i r t E. split; [exact (counted_fine rec TArray (fun n t => fine_counted TArray n t (fun _ _ => eq_refl) (fun _ _ => eq_refl)) H _ _ _ E)|].
    unfold counted in E. pinv E. pinv E. pinv E. pinv E. pinv E. injection E as <- <-. reflexivity.
  - intros i r t E. unfold packed_struct in E. pinv E. pinv E. pinv E. injection E as <- <-. destruct (fine_list _ (struct_body_fine rec H _ _ _ E1)) as [W V].
    repeat split; [exact W | exact V].
  - apply post_pmap. intros i r l E. destruct (fine_list _ (struct_body_fine rec H _ _ _ E)) as [W V]. repeat split; [exact W | exact V].
  - apply post_pmap. intros i r n E. unfold alias in E. pinv E. apply name_plain in E. repeat split. cbn [writable]. rewrite E. reflexivity.
  - apply post_pmap. intros i r u _. repeat split.
  - apply post_pmap. intros i r u _. repeat split.
  - apply post_pmap. intros i r u _. repeat split.
  - intros i r t E. unfold integer in E. pinv E. pinv E. injection E as <- <-. apply count_small in E1. repeat split. cbn [writable]. apply N.ltb_lt. exact E1.
  - apply post_pmap. intros i r u _. repeat split.
  - apply post_delimited. intros i r t E. split; [exact (counted_fine rec TVec (fun n t => fine_counted TVec n t (fun _ _ => eq_refl) (fun _ _ => eq_refl)) H _ _ _ E)|].
    unfold counted in E. pinv E. pinv E. pinv E. pinv E. pinv E. injection E as <- <-. reflexivity.
Qed.
Lemma stars_fine i : forall t r u, stars i t = (r, u) -> (fine t -> fine u) /\ starts_void u = starts_void t.
Proof.
  induction i as [|c i IH]; intros t r u E; cbn [stars] in E.
  - injection E as <- <-. split; [tauto | reflexivity].
  - destruct (Ascii.eqb c "*"); [|injection E as <- <-; split; [tauto | reflexivity]]. destruct (IH _ _ _ E) as [H1 H2]. split; [|exact H2].
    intros F. apply H1. exact F.
Qed.
Lemma fn_loop_fine rec : post fine rec -> forall n i t r u, fine' t -> fn_loop n rec i t = Done r u -> fine' u.
Proof.
  intros H. induction n as [|n IH]; intros i t r u F E; [discriminate|]. cbn [fn_loop] in E. unfold popt in E.
  destruct (fn_suffix rec i) as [i1 ins|e|e|] eqn:Es; try discriminate; cbn [pbind] in E.
  - destruct (stars i1 (TFn ins (Some t))) as [i2 t2] eqn:E2. destruct (stars_fine _ _ _ _ E2) as [H1 H2].
    apply (IH i2 t2 r u); [|exact E]. unfold fn_suffix in Es. pinv Es. destruct (fine_list _ (fn_inputs_fine rec H _ _ _ Es)) as [W V].
    destruct F as [[W1 V1] S1]. split; [|rewrite H2; exact S1]. apply H1. split; cbn [writable void_ok]; [rewrite W, W1; reflexivity | rewrite V, V1, S1; reflexivity].
  - injection E as <- <-. exact F.
Qed.
Lemma type_f_fine n : post fine (type_f n).
Proof.
  induction n as [|n IH]; intros i r t E; [discriminate|]. cbn [type_f] in E. unfold type_body in E. pinv E. destruct a as [u|].
  - pinv E. pinv E. destruct (stars i2 (TFn a0 None)) as [i3 t3] eqn:E3. injection E as <- <-. destruct (stars_fine _ _ _ _ E3) as [H1 _].
    apply H1. destruct (fine_list _ (fn_inputs_fine _ IH _ _ _ E2)) as [W V]. split; assumption.
  - pinv E. destruct (stars i1 a) as [i3 t3] eqn:E3. destruct (stars_fine _ _ _ _ E3) as [H1 H2]. pose proof (base_fine _ IH _ _ _ E1) as [F S].
    apply (fn_loop_fine _ IH _ _ _ _ _ (conj (H1 F) (eq_trans H2 S)) E).
Qed.
Lemma type_fine : post fine type_.
Proof. intros i. apply type_f_fine. Qed.

Definition fine_sig (s : fnsig) : Prop := sig_writable s = true /\ sig_void_ok s = true.
Definition fine_ret (o : option ty) : Prop := match o with Some t => fine t | None => True end.
Lemma fine_sig_intro l o : Forall fine l -> fine_ret o -> fine_sig {| inputs := l; output := o |}.
Proof.
  intros H1 H2. destruct (fine_list _ H1) as [W V]. split; unfold sig_writable, sig_void_ok; cbn [inputs output].
  - rewrite W. destruct o as [t|]; [apply H2 | reflexivity].
  - rewrite V. destruct o as [t|]; [apply H2 | reflexivity].
Qed.
Lemma ret_fine : post fine_ret ret_ty.
Proof. apply post_palt; apply post_pmap; [exact type_fine | intros i r u _; exact I]. Qed.
Lemma argument_fine : post fine argument.
Proof. intros i r t E. unfold argument in E. pinv E. pinv E. pinv E. pinv E. injection E as <- <-. exact (type_fine _ _ _ E0). Qed.
Lemma parameter_fine : post fine parameter.
Proof. intros i r t E. unfold parameter in E. pinv E. pinv E. pinv E. pinv E. injection E as <- <-. exact (type_fine _ _ _ E0). Qed.
Lemma decl_param_fine : post fine decl_param.
Proof. intros i r t E. unfold decl_param in E. pinv E. pinv E. injection E as <- <-. exact (type_fine _ _ _ E0). Qed.
Definition fine_stmt (s : stmt) : Prop := match s with IndirectCall s => fine_sig s | _ => True end.
Lemma asm_fine : post fine_stmt asm.
Proof. intros i r s E. unfold asm in E. do 10 pinv E. injection E as <- <-. exact I. Qed.
Lemma bitcast_call_fine : post fine_stmt bitcast_call.
Proof. intros i r s E. unfold bitcast_call in E. do 8 pinv E. injection E as <- <-. exact I. Qed.
Lemma direct_call_fine : post fine_stmt direct_call.
Proof. intros i r s E. unfold direct_call in E. do 9 pinv E. injection E as <- <-. exact I. Qed.
Lemma indirect_call_fine : post fine_stmt indirect_call.
Proof.
  intros i r s E. unfold indirect_call in E. pinv E. pinv E. pinv E. pinv E. pinv E. pinv E. pinv E. injection E as <- <-.
  apply fine_sig_intro; [|exact (ret_fine _ _ _ E2)].
  exact (post_delimited _ _ _ _ (post_separated_list0 fine comma argument argument_fine) _ _ _ E5).
Qed.
Lemma other_fine : post fine_stmt other.
Proof. intros i r s E. unfold other in E. pinv E. injection E as <- <-. exact I. Qed.
Lemma calls_fine : post fine_stmt (palt asm (palt bitcast_call (palt direct_call (palt indirect_call other)))).
Proof.
  repeat apply post_palt; [exact asm_fine | exact bitcast_call_fine | exact direct_call_fine | exact indirect_call_fine | exact other_fine].
Qed.
Lemma stmt_fine : post fine_stmt stmt_.
Proof.
  repeat apply post_palt.
  - intros i r s E. unfold label in E. pinv E. pinv E. pinv E. injection E as <- <-. exact I.
  - intros i r s E. unfold stmt_comment in E. pinv E. injection E as <- <-. exact I.
  - intros i r s E. pinv E. revert E. apply post_palt; [|exact calls_fine]. clear. intros i r s E. unfold assign in E.
    do 4 pinv E. exact (calls_fine _ _ _ E).
Qed.
Definition fine_item (it : item) : Prop :=
  match it with
  | IDefine d => fine_sig (d_sig d) /\ Forall fine_stmt (d_stmts d)
  | IDeclare _ (Some s) => fine_sig s
  | _ => True
  end.
Lemma define_fine : post (fun d => fine_item (IDefine d)) define_.
Proof.
  intros i r d E. unfold define_ in E. do 14 pinv E. injection E as <- <-. cbn [fine_item d_sig d_stmts]. split.
  - apply fine_sig_intro; [|exact (ret_fine _ _ _ E3)]. exact (post_separated_list0 fine comma parameter parameter_fine _ _ _ E7).
  - exact (post_separated_list1 fine_stmt _ stmt_ stmt_fine _ _ _ E11).
Qed.
Lemma declare_fine : post fine_item declare.
Proof.
  intros i r it E. unfold declare in E. do 7 pinv E. destruct (starts_with (lit "llvm.") a4).
  - unfold line_rest in E. pinv E. injection E as <- <-. exact I.
  - pinv E. pinv E. unfold line_rest in E. pinv E. injection E as <- <-. cbn [fine_item]. apply fine_sig_intro; [|exact (ret_fine _ _ _ E3)].
    exact (post_separated_list0 fine comma decl_param decl_param_fine _ _ _ E7).
Qed.
Lemma line_rest_post {A} (Q : A -> Prop) x : Q x -> post Q (line_rest x).
Proof. intros H i r a E. unfold line_rest in E. pinv E. injection E as <- <-. exact H. Qed.
Lemma item_fine : post fine_item item_.
Proof.
  unfold item_. repeat apply post_palt.
  - intros i r it E. unfold item_comment in E. pinv E. injection E as <- <-. exact I.
  - intros i r it E. unfold source_filename in E. do 3 pinv E. revert E. apply line_rest_post. exact I.
  - intros i r it E. unfold target in E. do 5 pinv E. revert E. apply line_rest_post. exact I.
  - intros i r it E. unfold item_type in E. do 3 pinv E. revert E. apply line_rest_post. exact I.
  - intros i r it E. unfold item_global in E. do 7 pinv E. revert E. apply line_rest_post. exact I.
  - intros i r it E. unfold item_alias in E. do 14 pinv E. injection E as <- <-. exact I.
  - apply post_pmap. exact define_fine.
  - exact declare_fine.
  - intros i r it E. unfold attributes in E. do 3 pinv E. revert E. apply line_rest_post. exact I.
  - intros i r it E. unfold metadata in E. pinv E. revert E. apply line_rest_post. exact I.
  - intros i r it E. unfold module_asm in E. do 5 pinv E. injection E as <- <-. exact I.
Qed.
Lemma parse_fine ll its : parse ll = Parsed its -> Forall fine_item its.
Proof.
  unfold parse, items. intros E. destruct (separated_list0 (many1 line_ending) item_ ll) as [i l|e|e|] eqn:Es; cbn [pbind] in E;
    try (destruct (find_line 0 _ _); discriminate); try discriminate.
  pose proof (post_separated_list0 fine_item _ item_ item_fine _ _ _ Es) as H.
  destruct (many0 line_ending i) as [i2 l2|e|e|]; cbn [pbind] in E; try (destruct (find_line 0 _ _); discriminate); try discriminate.
  destruct i2; [injection E as <-; exact H | destruct (find_line 0 _ _); discriminate].
Qed.

(** * Matching (C31) *)
Lemma str_eqb_iff a b : str_eqb a b = true <-> a = b.
Proof. apply str_eqb_eq. Qed.
Definition eqb_ok (t : ty) : Prop := forall u, ty_eqb t u = true <-> t = u.
Lemma tys_eqb_ok l : Forall eqb_ok l -> forall m, tys_eqb l m = true <-> l = m.
Proof.
  induction 1 as [|t l Ht H IH]; intros [|u m]; cbn [tys_eqb].
  - tauto.
  - split; discriminate.
  - split; discriminate.
  - rewrite andb_true_iff, (Ht u), (IH m). split; [intros [-> ->]; reflexivity | intros E; injection E as -> ->; split; reflexivity].
Qed.
Lemma ty_eqb_eq t : eqb_ok t.
Proof.
  induction t as [n|n t IH| | |n|l IH|l IH|l o IHl IHo|t IH| | |n t IH] using ty_induct; intros u; destruct u as [n'|n' t'| | |n'|l'|l'|l' o'|t'| | |n' t'];
    cbn [ty_eqb]; try (split; intros X; (discriminate X || reflexivity)); try (split; discriminate).
  - rewrite str_eqb_iff. split; [intros ->; reflexivity | intros E; injection E as ->; reflexivity].
  - rewrite andb_true_iff, N.eqb_eq, (IH t'). split; [intros [-> ->]; reflexivity | intros E; injection E as -> ->; split; reflexivity].
  - rewrite N.eqb_eq. split; [intros ->; reflexivity | intros E; injection E as ->; reflexivity].
  - change (tys_eqb l l' = true <-> TPacked l = TPacked l'). rewrite (tys_eqb_ok l IH l'). split; [intros ->; reflexivity | intros E; injection E as ->; reflexivity].
  - change (tys_eqb l l' = true <-> TStruct l = TStruct l'). rewrite (tys_eqb_ok l IH l'). split; [intros ->; reflexivity | intros E; injection E as ->; reflexivity].
  - change (tys_eqb l l' && match o, o' with Some t, Some u => ty_eqb t u | None, None => true | _, _ => false end = true <-> TFn l o = TFn l' o').
    rewrite andb_true_iff, (tys_eqb_ok l IHl l'). destruct o as [t|], o' as [t'|].
    + rewrite (IHo t'). split; [intros [-> ->]; reflexivity | intros E; injection E as -> ->; split; reflexivity].
    + split; [intros [_ X]; discriminate | discriminate].
    + split; [intros [_ X]; discriminate | discriminate].
    + split; [intros [-> _]; reflexivity | intros E; injection E as ->; split; reflexivity].
  - rewrite (IH t'). split; [intros ->; reflexivity | intros E; injection E as ->; reflexivity].
  - rewrite andb_true_iff, N.eqb_eq, (IH t'). split; [intros [-> ->]; reflexivity | intros E; injection E as -> ->; split; reflexivity].
Qed.
Lemma tys_eqb_eq l m : tys_eqb l m = true <-> l = m.
Proof. apply tys_eqb_ok. apply Forall_forall. intros t _. apply ty_eqb_eq. Qed.
Lemma sig_eqb_eq a b : sig_eqb a b = true <-> a = b.
Proof.
  destruct a as [i o], b as [j p]. unfold sig_eqb. cbn [inputs output]. rewrite andb_true_iff, tys_eqb_eq. unfold oty_eqb.
  destruct o as [t|], p as [u|]; rewrite ?(ty_eqb_eq t u).
  - split; [intros [-> ->]; reflexivity | intros E; injection E as -> ->; split; reflexivity].
  - split; [intros [_ X]; discriminate | discriminate].
  - split; [intros [_ X]; discriminate | discriminate].
  - split; [intros [-> _]; reflexivity | intros E; injection E as ->; split; reflexivity].
Qed.
Lemma ty_loose_iff a b : ty_loose a b = true <-> ty_matches a b.
Proof.
  unfold ty_matches. destruct a as [n|n t| | |n|l|l|l o|t| | |n t]; destruct b as [n'|n' t'| | |n'|l'|l'|l' o'|t'| | |n' t'];
    cbn [ty_loose is_pointer discriminant Nat.eqb];
    rewrite ?andb_true_iff, ?N.eqb_eq, ?tys_eqb_eq, ?sig_eqb_eq, ?str_eqb_iff; rewrite ?(ty_eqb_eq t t');
    try (split; [intros X; first [discriminate X | left; reflexivity | right; repeat split; tauto] | intros [X|[X [Y [Z|Z]]]]; first [discriminate | reflexivity]]).
  - split; [intros ->; left; reflexivity | intros [X|[X _]]; [injection X as ->; reflexivity | discriminate]].
  - split; [intros [-> ->]; left; reflexivity | intros [X|[X _]]; [injection X as -> ->; split; reflexivity | discriminate]].
  - split; [intros ->; left; reflexivity | intros [X|[X _]]; [injection X as ->; reflexivity | discriminate]].
  - split; [intros ->; left; reflexivity | intros [X|[X _]]; [injection X as ->; reflexivity | discriminate]].
  - split; [intros ->; left; reflexivity | intros [X|[X _]]; [injection X as ->; reflexivity | discriminate]].
  - split; [intros X; injection X as -> ->; left; reflexivity | intros [X|[X _]]; [injection X as -> ->; reflexivity | discriminate]].
  - split; [intros ->; left; reflexivity | intros [X|[_ [_ [X|X]]]]; [injection X as ->; reflexivity | discriminate..]].
  - split; [intros [-> ->]; left; reflexivity | intros [X|[X _]]; [injection X as -> ->; split; reflexivity | discriminate]].
Qed.
Lemma sig_loose_iff a b : sig_loose a b = true <-> sig_matches a b.
Proof.
  destruct a as [i o], b as [j p]. unfold sig_loose, sig_matches. cbn [inputs output]. rewrite !andb_true_iff.
  assert (H1 : forall i j, ((length i =? length j)%nat = true /\ forallb (fun p => ty_loose (fst p) (snd p)) (combine i j) = true) <-> Forall2 ty_matches i j).
  { clear. induction i as [|t i IH]; intros [|u j]; cbn [length combine forallb Nat.eqb fst snd].
    - split; [constructor | split; reflexivity].
    - split; [intros [X _]; discriminate | intros X; inversion X].
    - split; [intros [X _]; discriminate | intros X; inversion X].
    - rewrite andb_true_iff, ty_loose_iff. specialize (IH j). split.
      + intros [L [M R]]. constructor; [exact M | apply IH; split; assumption].
      + intros X. inversion X; subst. apply IH in H4. tauto. }
  rewrite H1. assert (H2 : match o, p with None, None => true | Some l, Some r => ty_loose l r | _, _ => false end = true <-> ret_matches o p).
  { destruct o as [t|], p as [u|]; cbn [ret_matches]; [apply ty_loose_iff | | |]; split; try tauto; discriminate. }
  rewrite H2. reflexivity.
Qed.
Lemma sig_loose_refl s : sig_loose s s = true.
Proof.
  apply sig_loose_iff. split.
  - induction (inputs s); constructor; [left; reflexivity | assumption].
  - destruct (output s); cbn; [left; reflexivity | exact I].
Qed.
Lemma ty_matches_sym a b : ty_matches a b -> ty_matches b a.
Proof. unfold ty_matches. intros [->|[H1 [H2 H3]]]; [left; reflexivity | right; tauto]. Qed.
Lemma sig_loose_sym a b : sig_loose a b = sig_loose b a.
Proof.
  apply Bool.eq_true_iff_eq. rewrite !sig_loose_iff.
  assert (H : forall a b, sig_matches a b -> sig_matches b a).
  { clear. intros a b [H1 H2]. split.
    - induction H1; constructor; [apply ty_matches_sym; assumption | assumption].
    - destruct (output a), (output b); cbn in *; try tauto. apply ty_matches_sym; assumption. }
  split; apply H.
Qed.
