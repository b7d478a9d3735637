(** Structure of an accepted or refused module: C33, C32. *)
From Verif Require Import M_base M_nom M_ty M_parse S_ir L_base L_nom L_ir1 L_ir2.

(** * Line numbers *)
Lemma split_cons s : s <> [] -> exists l ls, split_inclusive s = l :: ls.
Proof.
  destruct s as [|c s]; [contradiction|]. intros _. cbn [split_inclusive]. destruct (Ascii.eqb c LF); [eexists; eexists; reflexivity|].
  destruct (split_inclusive s); eexists; eexists; reflexivity.
Qed.
Lemma find_line_ok suf : suf <> [] -> forall pre n,
  find_line n (length pre) (split_inclusive (pre ++ suf)) = Some (n + line_feeds pre + 1)%nat.
Proof.
  intros Hs. induction pre as [|c pre IH]; intros n.
  - destruct (split_cons suf Hs) as [l [ls E]]. cbn [app length]. rewrite E. cbn [find_line].
    destruct l as [|d l]; [exfalso|cbn [length Nat.leb]; unfold line_feeds; cbn; f_equal; lia].
    revert E. destruct suf as [|c s]; [contradiction|]. cbn [split_inclusive]. destruct (Ascii.eqb c LF); [discriminate|]. destruct (split_inclusive s); discriminate.
  - cbn [app split_inclusive length]. destruct (Ascii.eqb_spec c LF) as [->|Hc].
    + cbn [find_line length Nat.leb Nat.sub]. rewrite Nat.sub_0_r. rewrite IH. unfold line_feeds. cbn. f_equal. lia.
    + destruct (split_cons (pre ++ suf)) as [l [ls E]]; [destruct pre; [exact Hs | discriminate]|]. specialize (IH n). rewrite E in IH |- *.
      cbn [find_line length Nat.leb Nat.sub] in IH |- *. rewrite IH. unfold line_feeds. cbn [filter].
      destruct (Ascii.eqb_spec "010" c) as [<-|_]; [exfalso; apply Hc; reflexivity | reflexivity].
Qed.

(** * Line ends *)
Lemma line_ending_inv i r u : line_ending i = Done r u -> exists e, i = e ++ r /\ eol_text e.
Proof.
  unfold line_ending. destruct i as [|c i]; [discriminate|]. destruct (Ascii.eqb_spec c LF) as [->|_].
  - intros E. injection E as <- _. exists [LF]. split; [reflexivity | constructor].
  - destruct (Ascii.eqb_spec c CR) as [->|_]; [|discriminate]. destruct i as [|d i]; [discriminate|].
    destruct (Ascii.eqb_spec d LF) as [->|_]; [|discriminate]. intros E. injection E as <- _. exists [CR; LF]. split; [reflexivity | constructor].
Qed.
Lemma many0_eols n : forall i r l, many0_loop n line_ending i = Done r l -> exists e, i = e ++ r /\ (e = [] \/ eols_text e) /\ exists x, line_ending r = Error x.
Proof.
  induction n as [|n IH]; intros i r l E; [discriminate|]. cbn [many0_loop] in E. destruct (line_ending i) as [i1 a|x|x|] eqn:El; try discriminate.
  - destruct (length i1 =? length i)%nat; [discriminate|]. pinv E. injection E as <- <-. destruct (line_ending_inv _ _ _ El) as [e [-> He]].
    destruct (IH _ _ _ E0) as [e2 [-> [H2 Hx]]]. exists (e ++ e2). rewrite app_assoc. split; [reflexivity|split; [|exact Hx]]. right.
    destruct H2 as [->|H2]; [rewrite app_nil_r; apply eols_one; exact He | apply eols_more; assumption].
  - injection E as <- <-. exists []. split; [reflexivity|split; [left; reflexivity|exists x; exact El]].
Qed.
Lemma many1_eols i r l : many1 line_ending i = Done r l -> exists e, i = e ++ r /\ eols_text e.
Proof.
  unfold many1. intros E. pinv E. pinv E. injection E as <- <-. destruct (line_ending_inv _ _ _ E0) as [e [-> He]].
  destruct (many0_eols _ _ _ _ E1) as [e2 [-> [H2 _]]]. exists (e ++ e2). rewrite app_assoc. split; [reflexivity|].
  destruct H2 as [->|H2]; [rewrite app_nil_r; apply eols_one; exact He | apply eols_more; assumption].
Qed.

Lemma many0_eols_noerr : forall n i z, many0_loop n line_ending i <> Error z.
Proof.
  induction n as [|n IH]; intros i z; [discriminate|]. cbn [many0_loop]. destruct (line_ending i) as [i2 b|w|w|] eqn:E1; try discriminate.
  destruct (line_ending_inv _ _ _ E1) as [e [Ei He]]. destruct (Nat.eqb_spec (length i2) (length i)) as [L|_].
  - rewrite Ei, app_length in L. destruct He; cbn in L; lia.
  - specialize (IH i2). destruct (many0_loop n line_ending i2); cbn [pbind]; try discriminate. intros X. injection X as ->. exact (IH _ eq_refl).
Qed.
Lemma many1_err i x : many1 line_ending i = Error x -> exists y, line_ending i = Error y.
Proof.
  unfold many1. destruct (line_ending i) as [i1 a|y|y|] eqn:E; cbn [pbind]; try discriminate; [|exists y; reflexivity].
  pose proof (many0_eols_noerr (S (length i1)) i1) as G.
  destruct (many0_loop (S (length i1)) line_ending i1) as [i2 l|y|y|]; cbn [pbind]; try discriminate. exfalso. exact (G _ eq_refl).
Qed.

(** * Separated lists *)
(** On [s ++ r], [p] takes [s] and returns [x]. *)
Definition took {A} (p : parser A) (r : str) (x : A) (s : str) : Prop := p (s ++ r) = Done r x.
(** More elements, each after line ends. *)
Inductive chain {A} (p : parser A) (r : str) : list A -> str -> Prop :=
| ch_nil : chain p r [] r
| ch_cons e s i x l : eols_text e -> took p i x s -> chain p r l i -> chain p r (x :: l) (e ++ s ++ i).
(** What follows a list: no line end, or line ends and then no element. *)
Definition list_stops {A} (p : parser A) (r : str) : Prop :=
  (exists x, line_ending r = Error x) \/ (exists i u x, many1 line_ending r = Done i u /\ p i = Error x).
Definition takes_prefix {A} (p : parser A) : Prop := forall i r a, p i = Done r a -> exists w, i = w ++ r.
Lemma good_takes {A} k (p : parser A) : (forall m, good m k p) -> takes_prefix p.
Proof. intros H i r a E. specialize (H (length i) i (le_n _)). rewrite E in H. destruct H as [w [Ew _]]. exists w. exact Ew. Qed.
Lemma sep_loop_inv {A} (p : parser A) n : takes_prefix p -> forall i r l, sep_loop n (many1 line_ending) p i = Done r l ->
  list_stops p r /\ chain p r l i.
Proof.
  intros Hp. induction n as [|n IH]; intros i r l E; [discriminate|]. cbn [sep_loop] in E. destruct (many1 line_ending i) as [i1 u|x|x|] eqn:Es; try discriminate.
  - destruct (many1_eols _ _ _ Es) as [e [Ei He]]. destruct (length i1 =? length i)%nat; [discriminate|]. destruct (p i1) as [i2 a|x|x|] eqn:Ep; try discriminate.
    + pinv E. injection E as <- <-. destruct (IH _ _ _ E0) as [Hst Hl]. split; [exact Hst|]. destruct (Hp _ _ _ Ep) as [s Ei1]. rewrite Ei, Ei1.
      apply ch_cons; [exact He | unfold took; rewrite <- Ei1; exact Ep | exact Hl].
    + injection E as <- <-. split; [right; exists i1, u, x; split; assumption | constructor].
  - injection E as <- <-. split; [left; exact (many1_err _ _ Es) | constructor].
Qed.
Lemma separated_list1_inv {A} (p : parser A) i r l : takes_prefix p -> separated_list1 (many1 line_ending) p i = Done r l ->
  list_stops p r /\ exists x l' s i1, l = x :: l' /\ i = s ++ i1 /\ took p i1 x s /\ chain p r l' i1.
Proof.
  intros Hp E. unfold separated_list1 in E. pinv E. pinv E. injection E as <- <-. destruct (sep_loop_inv p _ Hp _ _ _ E1) as [H1 H2].
  split; [exact H1|]. destruct (Hp _ _ _ E0) as [s ->]. exists a, a0, s, i0. repeat split; assumption.
Qed.
Lemma separated_list0_inv {A} (p : parser A) i r l : takes_prefix p -> separated_list0 (many1 line_ending) p i = Done r l ->
  (l = [] /\ r = i /\ exists x, p i = Error x) \/
  (list_stops p r /\ exists x l' s i1, l = x :: l' /\ i = s ++ i1 /\ took p i1 x s /\ chain p r l' i1).
Proof.
  intros Hp E. unfold separated_list0 in E. destruct (p i) as [i0 a|x|x|] eqn:E0; try discriminate.
  - right. pinv E. injection E as <- <-. destruct (sep_loop_inv p _ Hp _ _ _ E1) as [H1 H2].
    split; [exact H1|]. destruct (Hp _ _ _ E0) as [s ->]. exists a, a0, s, i0. repeat split; assumption.
  - left. injection E as <- <-. repeat split. exists x. reflexivity.
Qed.
(** As texts: every element is followed by a line end, or it is the last one. *)
Lemma chain_glued {A} (p : parser A) (Q : A -> str -> Prop) r :
  (forall r' x s, took p r' x s -> (r' = r \/ exists e r2, eols_text e /\ r' = e ++ r2) -> Q x s) ->
  forall l i, chain p r l i -> forall x s, took p i x s -> exists s', s ++ i = s' ++ r /\ glued Q (x :: l) s'.
Proof.
  intros HQ l i H. induction H as [|e s2 i y l He Ht H IH]; intros x s Hx.
  - exists s. split; [reflexivity|]. apply gl_one. apply (HQ r); [exact Hx | left; reflexivity].
  - destruct (IH y s2 Ht) as [s' [E G]]. exists (s ++ e ++ s'). rewrite E, <- !app_assoc. split; [reflexivity|].
    apply gl_cons; [|exact He|exact G]. apply (HQ (e ++ s2 ++ i)); [exact Hx|]. right. exists e, (s2 ++ i). split; [exact He | reflexivity].
Qed.

(** * Refused modules (C33) *)
Lemma eols_length e : eols_text e -> e <> [].
Proof. intros H. destruct H as [s []|s s' []]; discriminate. Qed.
Lemma takes_item : takes_prefix item_. Proof. apply (good_takes 1). exact good_item. Qed.
Lemma items_ok ll : okres 0 ll (items ll) \/ exists e, items ll = Failure e /\ e <> [] /\ exists w, ll = w ++ e.
Proof.
  unfold items. pose proof (good_separated_list0 (length ll) 1 (many1 line_ending) item_ (good_weaken _ 1 0 _ (Nat.le_0_l 1) (good_eols _)) (good_item _) ll (le_n _)) as G1.
  destruct (separated_list0 (many1 line_ending) item_ ll) as [i l|e|e|]; try contradiction; [|left; exact G1]. cbn [pbind].
  destruct G1 as [w [-> _]]. pose proof (good_many0 (length i) 1 line_ending (good_line_ending _) i (le_n _)) as G2.
  destruct (many0 line_ending i) as [i2 l2|e|e|]; try contradiction; cbn [pbind].
  - destruct G2 as [w2 [-> _]]. destruct i2 as [|c i2].
    + left. exists (w ++ w2). rewrite !app_nil_r. split; [reflexivity | lia].
    + right. exists (c :: i2). split; [reflexivity|split; [discriminate|]]. exists (w ++ w2). apply app_assoc.
  - left. destruct G2 as [w2 ->]. exists (w ++ w2). apply app_assoc.
Qed.
Lemma many0_fuel {A} (p : parser A) n : forall i m, (n <= m)%nat -> many0_loop n p i <> NoFuel -> many0_loop m p i = many0_loop n p i.
Proof.
  induction n as [|n IH]; intros i m L H; [exfalso; apply H; reflexivity|]. destruct m as [|m]; [lia|]. cbn [many0_loop] in H |- *.
  destruct (p i) as [i1 a|x|x|]; try reflexivity. destruct (length i1 =? length i)%nat; [reflexivity|].
  rewrite (IH i1 m); [reflexivity | lia |]. intros X. rewrite X in H. apply H. reflexivity.
Qed.
Lemma many1_many0 i r l : many1 line_ending i = Done r l -> exists l', many0 line_ending i = Done r l'.
Proof.
  unfold many1, many0. intros E. pinv E. pinv E. injection E as <- <-. destruct (line_ending_inv _ _ _ E0) as [e [Ei He]].
  cbn [many0_loop]. rewrite E0. assert (L : (length i0 < length i)%nat) by (rewrite Ei, app_length; destruct He; cbn; lia).
  destruct (Nat.eqb_spec (length i0) (length i)) as [X|_]; [lia|].
  rewrite (many0_fuel line_ending (S (length i0)) i0 (length i)); [|lia|rewrite E1; discriminate]. rewrite E1. eexists. reflexivity.
Qed.
Lemma chain_last {A} (p : parser A) r l i : chain p r l i -> forall x s, took p i x s -> exists q y w, s ++ i = q ++ w ++ r /\ took p r y w.
Proof.
  intros H. induction H as [|e s2 i y l He Ht H IH]; intros x s Hx.
  - exists [], x, s. split; [reflexivity | exact Hx].
  - destruct (IH y s2 Ht) as [q [z [w [E Hw]]]]. exists (s ++ e ++ q), z, w. rewrite E, <- !app_assoc. split; [reflexivity | exact Hw].
Qed.
Lemma took_nonempty {A} (p : parser A) r x s : (forall m, good m 1 p) -> took p r x s -> s <> [].
Proof.
  intros G H. specialize (G (length (s ++ r)) (s ++ r) (le_n _)). unfold took in H. rewrite H in G. destruct G as [w [E L]].
  apply app_inv_tail in E. subst w. destruct s; [cbn in L; lia | discriminate].
Qed.
Lemma eols_end e : eols_text e -> exists q, e = q ++ [LF].
Proof.
  intros H. induction H as [s []|s s' _ _ [q ->]].
  - exists []. reflexivity.
  - exists [CR]. reflexivity.
  - exists (s ++ q). apply app_assoc.
Qed.
Definition reads_item (it : item) (s : str) : Prop := exists r, item_ (s ++ r) = Done r it.
Lemma items_read ll : exists its pre suf,
  ll = pre ++ suf /\ module_text reads_item its pre /\ (exists x, line_ending suf = Error x) /\
  items ll = match suf with [] => Done [] its | _ => Failure suf end /\
  (suf <> [] -> ((exists x, item_ suf = Error x) /\ (pre = [] \/ exists q, pre = q ++ [LF])) \/
       (exists q s it, pre = q ++ s /\ s <> [] /\ item_ (s ++ suf) = Done suf it) \/
       (its = [] /\ eols_text pre)).
Proof.
  pose proof (items_ok ll) as Hok. unfold items in *.
  destruct (separated_list0 (many1 line_ending) item_ ll) as [r l|x|x|] eqn:El; cbn [pbind] in *.
  2: { exfalso. clear Hok. unfold separated_list0 in El. destruct (item_ ll) as [i1 a|y|y|]; try discriminate.
       assert (G : forall n i x, sep_loop n (many1 line_ending) item_ i <> Error x).
       { clear. induction n as [|n IH]; intros i x; [discriminate|]. cbn [sep_loop]. destruct (many1 line_ending i) as [i1 u|y|y|] eqn:Em; try discriminate.
         destruct (many1_eols _ _ _ Em) as [e [Ei He]]. destruct (Nat.eqb_spec (length i1) (length i)) as [L|_].
         - rewrite Ei, app_length in L. apply eols_length in He. destruct e; [contradiction | cbn in L; lia].
         - destruct (item_ i1) as [i2 b|y|y|]; try discriminate. specialize (IH i2). destruct (sep_loop n (many1 line_ending) item_ i2); cbn [pbind]; try discriminate.
           intros X. injection X as ->. exact (IH _ eq_refl). }
       destruct (sep_loop (S (length i1)) (many1 line_ending) item_ i1) eqn:E2; cbn [pbind] in El; try discriminate. injection El as ->. exact (G _ _ _ E2). }
  2: { destruct Hok as [[]|[e [E _]]]. exfalso. pose proof (good_separated_list0 (length ll) 1 (many1 line_ending) item_ (good_weaken _ 1 0 _ (Nat.le_0_l 1) (good_eols _)) (good_item _) ll (le_n _)) as G1.
       rewrite El in G1. exact G1. }
  2: { destruct Hok as [[]|[e [E _]]]. discriminate. }
  destruct (many0 line_ending r) as [suf l2|x|x|] eqn:E0; cbn [pbind] in *.
  2: { exfalso. exact (many0_eols_noerr _ _ _ E0). }
  2: { exfalso. pose proof (good_many0 (length r) 1 line_ending (good_line_ending _) r (le_n _)) as G. rewrite E0 in G. exact G. }
  2: { exfalso. pose proof (good_many0 (length r) 1 line_ending (good_line_ending _) r (le_n _)) as G. rewrite E0 in G. exact G. }
  clear Hok. destruct (many0_eols _ _ _ _ E0) as [e [Er [He Hx]]].
  destruct (separated_list0_inv item_ ll r l takes_item El) as [[-> [-> [x Hx2]]]|[Hst [y [l' [s [i1 [-> [Es [Ht Hc]]]]]]]]].
  - exists [], e, suf. split; [exact Er|]. split; [apply mo_none; exact He|]. split; [exact Hx|]. split; [destruct suf; reflexivity|].
    intros Hs. destruct He as [->|He].
    + left. split; [exists x; cbn in Er; rewrite <- Er; exact Hx2 | left; reflexivity].
    + right. right. split; [reflexivity | exact He].
  - destruct (chain_glued item_ reads_item r (fun r' x s H _ => ex_intro _ r' H) l' i1 Hc y s Ht) as [s' [E1 G]].
    exists (y :: l'), (s' ++ e), suf. rewrite <- app_assoc, <- Er. split; [rewrite <- E1; exact Es|]. split; [apply mo_some; assumption|]. split; [exact Hx|].
    split; [destruct suf; reflexivity|]. intros Hs. destruct Hst as [[x Hst]|[i [u [x [H1 H2]]]]].
    + right. left. assert (e = []) as ->.
      { unfold many0 in E0. cbn [many0_loop] in E0. rewrite Hst in E0. injection E0 as <- _. destruct He as [->|He]; [reflexivity|].
        apply (f_equal (@length ascii)) in Er. rewrite app_length in Er. destruct e; [reflexivity | cbn in Er; lia]. }
      destruct (chain_last item_ r l' i1 Hc y s Ht) as [q [it [w [E2 Hw]]]]. exists q, w, it. cbn [app] in Er. subst r.
      split; [|split; [apply (took_nonempty item_ suf it w good_item Hw) | exact Hw]].
      rewrite E1, app_assoc in E2. apply app_inv_tail in E2. rewrite app_nil_r. exact E2.
    + left. destruct (many1_many0 _ _ _ H1) as [l3 H3]. rewrite E0 in H3. injection H3 as -> _. split; [exists x; exact H2|]. right.
      destruct He as [->|He].
      * exfalso. cbn in Er. subst r. destruct (many1_eols _ _ _ H1) as [e2 [E3 H3]]. apply (f_equal (@length ascii)) in E3. rewrite app_length in E3.
        apply eols_length in H3. destruct e2; [contradiction | cbn in E3; lia].
      * destruct (eols_end e He) as [q ->]. exists (s' ++ q). rewrite <- app_assoc. reflexivity.
Qed.
Lemma line_ending_at_eol i x : i <> [] -> line_ending i = Error x -> at_eol i = false.
Proof.
  destruct i as [|c i]; [contradiction|]. intros _ H. unfold line_ending in H. cbn [at_eol]. change "010"%char with LF. change "013"%char with CR.
  destruct (Ascii.eqb c LF); [discriminate|]. destruct (Ascii.eqb c CR); [|reflexivity]. destruct i as [|d i]; [reflexivity|]. destruct (Ascii.eqb d LF); [discriminate | reflexivity].
Qed.
Lemma parse_total ll :
  (exists its, parse ll = Parsed its /\ module_text reads_item its ll) \/
  (exists its pre suf, parse ll = Failed (line_feeds pre + 1) /\ ll = pre ++ suf /\ suf <> [] /\ at_eol suf = false /\ module_text reads_item its pre /\
     (((exists x, item_ suf = Error x) /\ (pre = [] \/ exists q, pre = q ++ ["010"%char])) \/
      (exists q s it, pre = q ++ s /\ s <> [] /\ item_ (s ++ suf) = Done suf it) \/
      (its = [] /\ eols_text pre))).
Proof.
  destruct (items_read ll) as [its [pre [suf [E [M [[x Hx] [I H]]]]]]]. unfold parse. rewrite I. destruct suf as [|c suf].
  - left. exists its. rewrite app_nil_r in E. subst pre. split; [reflexivity | exact M].
  - right. exists its, pre, (c :: suf). assert (Hs : c :: suf <> []) by discriminate.
    replace (length ll - length (c :: suf))%nat with (length pre) by (rewrite E, app_length; lia). rewrite E, (find_line_ok (c :: suf) Hs pre 0).
    split; [reflexivity|]. split; [reflexivity|]. split; [exact Hs|]. split; [exact (line_ending_at_eol _ _ Hs Hx)|]. split; [exact M|]. exact (H Hs).
Qed.
