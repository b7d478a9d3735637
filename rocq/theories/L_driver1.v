(** Lemmas on the `rustc` wrapper. *)
From Verif Require Import M_base L_base M_thumb M_parse M_build M_run M_wrapper M_driver S_build S_driver.

Lemma splitn2_some c s a b : splitn2 c s = (a, Some b) <-> s = a ++ c :: b /\ ~ In c a.
Proof.
  revert a. induction s as [|x s IH]; intros a; cbn.
  - split; [discriminate | intros [H _]; destruct a; discriminate].
  - destruct (Ascii.eqb_spec x c) as [->|Ne].
    + split.
      * intros E. injection E as <- <-. split; [reflexivity | intros []].
      * intros [E N]. destruct a as [|y a]; [injection E as ->; reflexivity|]. injection E as <- ->. destruct N. now left.
    + destruct (splitn2 c s) as [p r] eqn:Ep. split.
      * intros E. injection E as <- ->. destruct (proj1 (IH p) eq_refl) as [-> N]. split; [reflexivity|]. intros [E | I]; [now apply Ne | now apply N].
      * intros [E N]. destruct a as [|y a]; [injection E as -> _; now destruct Ne|]. injection E as <- E.
        assert (K := proj2 (IH a) (conj E (fun I => N (or_intror I)))). injection K as -> ->. reflexivity.
Qed.
Lemma splitn2_none c s a : splitn2 c s = (a, None) <-> s = a /\ ~ In c a.
Proof.
  revert a. induction s as [|x s IH]; intros a; cbn.
  - split; [intros E; injection E as <-; split; [reflexivity | intros []] | intros [<- _]; reflexivity].
  - destruct (Ascii.eqb_spec x c) as [->|Ne].
    + split; [discriminate|]. intros [<- N]. destruct N. now left.
    + destruct (splitn2 c s) as [p r] eqn:Ep. split.
      * intros E. injection E as <- ->. destruct (proj1 (IH p) eq_refl) as [-> N]. split; [reflexivity|]. intros [E | I]; [now apply Ne | now apply N].
      * intros [<- N]. assert (K := proj2 (IH s) (conj eq_refl (fun I => N (or_intror I)))). injection K as -> ->. reflexivity.
Qed.
Lemma splitn2_path name path : ~ In "="%char name -> splitn2 "=" (with_path name path) = (name, path).
Proof. intros N. destruct path as [p|]; cbn; [apply splitn2_some | apply splitn2_none]; now split. Qed.
Lemma with_path_split s : let '(n, p) := splitn2 "=" s in s = with_path n p /\ ~ In "="%char n.
Proof.
  destruct (splitn2 "=" s) as [n [p|]] eqn:E; [apply splitn2_some in E; destruct E as [-> N] | apply splitn2_none in E; destruct E as [-> N]]; now split.
Qed.
Lemma starts_false p s : starts_with p s = false <-> forall r, s <> p ++ r.
Proof.
  split.
  - intros E r ->. rewrite starts_with_refl in E. discriminate.
  - intros N. destruct (starts_with p s) eqn:E; [|reflexivity]. apply starts_with_app in E. destruct E as [r ->]. now destruct (N r).
Qed.

Definition apply (o : opt) (st : parsing) : parsing :=
  match o with
  | OExtern n p => mkParsing (ps_extra st) (ps_crate st) (ps_out st) (ps_externs st ++ [mkExtern n p])
  | OCrate n => mkParsing (ps_extra st) (Some n) (ps_out st) (ps_externs st)
  | OOut d => mkParsing (ps_extra st) (ps_crate st) (Some d) (ps_externs st)
  | OExtra v => mkParsing (Some v) (ps_crate st) (ps_out st) (ps_externs st)
  | OOther => st
  end.
Lemma codegen_other v st : v <> lit "extra-filename" -> (forall r, v <> lit "extra-filename=" ++ r) -> parse_codegen v st = Ret st.
Proof.
  intros N1 N2. unfold parse_codegen. pose proof (with_path_split v) as K. destruct (splitn2 "=" v) as [n p]. destruct K as [-> _].
  destruct (str_eqb_spec n (lit "extra-filename")) as [->|]; [|reflexivity]. destruct p as [p|]; [now destruct (N2 p) | now destruct N1].
Qed.
Lemma codegen_extra v st : parse_codegen (lit "extra-filename=" ++ v) st = Ret (apply (OExtra v) st).
Proof.
  unfold parse_codegen. change (lit "extra-filename=" ++ v) with (with_path (lit "extra-filename") (Some v)).
  rewrite splitn2_path; [rewrite str_eqb_refl; reflexivity|]. intros I. cbn in I. repeat destruct I as [I|I]; try discriminate. exact I.
Qed.
Lemma parse_extern_plain name path : ~ In "="%char name -> (forall r, with_path name path <> lit "noprelude:" ++ r) ->
  parse_extern (with_path name path) = mkExtern name path.
Proof. intros N K. unfold parse_extern. rewrite (proj2 (starts_false noprelude _) K), splitn2_path by exact N. reflexivity. Qed.
Lemma parse_extern_noprelude name path : ~ In "="%char name -> parse_extern (lit "noprelude:" ++ with_path name path) = mkExtern name path.
Proof.
  intros N. unfold parse_extern. unfold noprelude. rewrite starts_with_refl. rewrite skipn_app, skipn_all, Nat.sub_diag, skipn_O.
  cbn [app]. rewrite splitn2_path by exact N. reflexivity.
Qed.
Ltac lit_eqb := match goal with |- context [str_eqb (lit ?a) (lit ?b)] => let e := eval vm_compute in (str_eqb (lit a) (lit b)) in change (str_eqb (lit a) (lit b)) with e; cbv iota beta end.
Lemma cmd_app s : str_eqb (lit "-C" ++ s) (lit "--extern") = false /\ str_eqb (lit "-C" ++ s) (lit "--crate-name") = false /\ str_eqb (lit "-C" ++ s) (lit "--out-dir") = false.
Proof. repeat split. Qed.
Lemma step_written o ws : written o ws -> forall rest st, parse_loop (ws ++ rest) st = parse_loop rest (apply o st).
Proof.
  intros H rest st. destruct H as [name path N K | name path N | n | d | v | v | v V N K | v N K | a N K]; cbn [app parse_loop].
  - change (str_eqb (lit "--extern") (lit "--extern")) with true. cbv iota. now rewrite parse_extern_plain.
  - change (str_eqb (lit "--extern") (lit "--extern")) with true. cbv iota. now rewrite parse_extern_noprelude.
  - repeat lit_eqb. reflexivity.
  - repeat lit_eqb. reflexivity.
  - change (lit "-Cextra-filename=" ++ v) with (lit "-C" ++ lit "extra-filename=" ++ v). destruct (cmd_app (lit "extra-filename=" ++ v)) as [-> [-> ->]].
    rewrite starts_with_refl. change (skipn 2 (lit "-C" ++ lit "extra-filename=" ++ v)) with (lit "extra-filename=" ++ v).
    destruct (lit "extra-filename=" ++ v) as [|c w] eqn:Ex; [discriminate Ex|]. rewrite <- Ex, codegen_extra. reflexivity.
  - repeat lit_eqb. change (starts_with (lit "-C") (lit "-C")) with true. cbv iota. change (skipn 2 (lit "-C")) with (@nil ascii). cbv iota. rewrite codegen_extra. reflexivity.
  - destruct (cmd_app v) as [-> [-> ->]]. rewrite starts_with_refl. change (skipn 2 (lit "-C" ++ v)) with v. destruct v as [|c v]; [now destruct V|].
    rewrite codegen_other by assumption. reflexivity.
  - repeat lit_eqb. change (starts_with (lit "-C") (lit "-C")) with true. cbv iota. change (skipn 2 (lit "-C")) with (@nil ascii). cbv iota. rewrite codegen_other by assumption. reflexivity.
  - cbn [map In] in N. destruct (str_eqb_spec a (lit "--extern")) as [->|]; [tauto|]. destruct (str_eqb_spec a (lit "--crate-name")) as [->|]; [tauto|].
    destruct (str_eqb_spec a (lit "--out-dir")) as [->|]; [tauto|]. rewrite (proj2 (starts_false (lit "-C") a) K). reflexivity.
Qed.
Lemma loop_written opts : forall ws rest st, Forall2 written opts ws -> parse_loop (concat ws ++ rest) st = parse_loop rest (fold_left (fun s o => apply o s) opts st).
Proof.
  induction opts as [|o opts IH]; intros ws rest st F; inversion F as [|? w ? ws' H F']; subst; [reflexivity|]. cbn [concat fold_left]. rewrite <- app_assoc.
  rewrite (step_written o w H). now apply IH.
Qed.
Lemma dangling_fails t st : dangling t -> exists m, parse_loop t st = Fail m.
Proof.
  intros D. destruct D as [a I | r | r].
  - cbn [map In] in I. destruct I as [<-|[<-|[<-|[<-|[]]]]]; eexists; reflexivity.
  - eexists. reflexivity.
  - eexists. reflexivity.
Qed.
(** Every list of arguments is a list of options, perhaps followed by an option without value. *)
Lemma prefix_dec (p s : str) : (exists r, s = p ++ r) \/ (forall r, s <> p ++ r).
Proof. destruct (starts_with p s) eqn:E; [left; now apply starts_with_app | right; now apply starts_false]. Qed.
Lemma every_extern v : exists o, written o [lit "--extern"; v].
Proof.
  destruct (prefix_dec (lit "noprelude:") v) as [[r ->] | N].
  - pose proof (with_path_split r) as K. destruct (splitn2 "=" r) as [n p]. destruct K as [-> K]. eexists. now apply wr_noprelude.
  - pose proof (with_path_split v) as K. destruct (splitn2 "=" v) as [n p]. destruct K as [-> K]. eexists. now apply wr_extern.
Qed.
Lemma str_dec (a b : str) : {a = b} + {a <> b}.
Proof. apply list_eq_dec, ascii_dec. Qed.
Lemma every_args_n n : forall args, length args <= n ->
  exists opts ws tail, Forall2 written opts ws /\ args = concat ws ++ tail /\ (tail = [] \/ dangling tail).
Proof.
  induction n as [|n IH]; intros args L.
  { destruct args; [|cbn in L; lia]. exists [], [], []. repeat constructor. }
  destruct args as [|a args]; [exists [], [], []; repeat constructor|]. cbn in L.
  assert (Two : forall v rest o, args = v :: rest -> written o [a; v] ->
    exists opts ws tail, Forall2 written opts ws /\ a :: args = concat ws ++ tail /\ (tail = [] \/ dangling tail)).
  { intros v rest o -> W. destruct (IH rest) as [opts [ws [tail [F [E T]]]]]; [cbn in L; lia|]. exists (o :: opts), ([a; v] :: ws), tail.
    split; [now constructor|]. split; [cbn; now rewrite <- E | exact T]. }
  assert (One : forall o, written o [a] -> exists opts ws tail, Forall2 written opts ws /\ a :: args = concat ws ++ tail /\ (tail = [] \/ dangling tail)).
  { intros o W. destruct (IH args) as [opts [ws [tail [F [E T]]]]]; [lia|]. exists (o :: opts), ([a] :: ws), tail.
    split; [now constructor|]. split; [cbn; now rewrite <- E | exact T]. }
  assert (Zero : dangling (a :: args) -> exists opts ws tail, Forall2 written opts ws /\ a :: args = concat ws ++ tail /\ (tail = [] \/ dangling tail)).
  { intros D. exists [], [], (a :: args). split; [constructor|]. split; [reflexivity | now right]. }
  destruct (str_dec a (lit "--extern")) as [->|N1].
  { destruct args as [|v rest]; [apply Zero, da_value; cbn; tauto|]. destruct (every_extern v) as [o W]. exact (Two v rest o eq_refl W). }
  destruct (str_dec a (lit "--crate-name")) as [->|N2].
  { destruct args as [|v rest]; [apply Zero, da_value; cbn; tauto|]. exact (Two v rest _ eq_refl (wr_crate v)). }
  destruct (str_dec a (lit "--out-dir")) as [->|N3].
  { destruct args as [|v rest]; [apply Zero, da_value; cbn; tauto|]. exact (Two v rest _ eq_refl (wr_out v)). }
  destruct (prefix_dec (lit "-C") a) as [[v ->] | N4].
  - destruct v as [|c v].
    + destruct args as [|v rest]; [apply Zero, da_value; cbn; tauto|].
      destruct (str_dec v (lit "extra-filename")) as [->|M1]; [apply Zero, da_extra2|].
      destruct (prefix_dec (lit "extra-filename=") v) as [[r ->] | M2]; [exact (Two _ rest _ eq_refl (wr_extra2 r)) | exact (Two v rest _ eq_refl (wr_codegen2 v M1 M2))].
    + destruct (str_dec (c :: v) (lit "extra-filename")) as [Ev|M1]; [apply Zero; rewrite Ev; apply da_extra1|].
      destruct (prefix_dec (lit "extra-filename=") (c :: v)) as [[r Ev] | M2]; [apply (One (OExtra r)); rewrite Ev; exact (wr_extra1 r)|].
      refine (One _ (wr_codegen1 (c :: v) _ M1 M2)). discriminate.
  - apply (One OOther), wr_other; [|exact N4]. cbn [map In]. intuition congruence.
Qed.
Lemma every_args args : exists opts ws tail, Forall2 written opts ws /\ args = concat ws ++ tail /\ (tail = [] \/ dangling tail).
Proof. exact (every_args_n (length args) args (le_n _)). Qed.

(** ** What is extracted *)
Lemma latest_unique {A} (f : A -> option str) l r1 r2 : latest f l r1 -> latest f l r2 -> r1 = r2.
Proof.
  destruct r1 as [v1|], r2 as [v2|]; cbn; try reflexivity.
  - intros [a1 [x1 [b1 [E1 [F1 K1]]]]] [a2 [x2 [b2 [E2 [F2 K2]]]]]. f_equal. rewrite E1 in E2. clear E1 l. revert a2 E2.
    induction a1 as [|y a1 IH]; intros [|z a2] E2; cbn in E2; injection E2 as Eh Et.
    + subst. congruence.
    + subst z. rewrite (K1 x2) in F2; [discriminate|]. rewrite Et. apply in_or_app. right. now left.
    + subst y. rewrite (K2 x1) in F1; [discriminate|]. rewrite <- Et. apply in_or_app. right. now left.
    + now apply IH in Et.
  - intros [a [x [b [-> [F _]]]]] N. rewrite N in F; [discriminate|]. apply in_or_app. right. now left.
  - intros N [a [x [b [-> [F _]]]]]. rewrite N in F; [discriminate|]. apply in_or_app. right. now left.
Qed.
Fixpoint last_of {A} (f : A -> option str) (l : list A) (d : option str) : option str :=
  match l with [] => d | x :: l' => last_of f l' (match f x with Some v => Some v | None => d end) end.
Lemma last_of_snoc {A} (f : A -> option str) l x d : last_of f (l ++ [x]) d = match f x with Some v => Some v | None => last_of f l d end.
Proof. revert d. induction l as [|y l IH]; intros d; cbn; [reflexivity | apply IH]. Qed.
Lemma last_of_latest {A} (f : A -> option str) l : latest f l (last_of f l None).
Proof.
  induction l as [|x l IH] using rev_ind; [intros y []|]. rewrite last_of_snoc. destruct (f x) as [v|] eqn:E.
  - exists l, x, []. split; [reflexivity|]. split; [exact E | intros y []].
  - destruct (last_of f l None) as [v|] eqn:L.
    + destruct IH as [a [z [b [-> [F K]]]]]. exists a, z, (b ++ [x]). split; [now rewrite <- app_assoc|]. split; [exact F|].
      intros y I. apply in_app_or in I. destruct I as [I | [<- | []]]; [now apply K | exact E].
    + intros y I. apply in_app_or in I. destruct I as [I | [<- | []]]; [now apply IH | exact E].
Qed.
Lemma last_of_app {A} (f : A -> option str) l1 l2 d : last_of f (l1 ++ l2) d = last_of f l2 (last_of f l1 d).
Proof. revert d. induction l1 as [|x l1 IH]; intros d; [reflexivity | apply IH]. Qed.
Lemma fold_apply opts : forall st, fold_left (fun s o => apply o s) opts st =
  mkParsing (last_of extra_of opts (ps_extra st)) (last_of crate_of opts (ps_crate st)) (last_of out_of opts (ps_out st)) (ps_externs st ++ select extern_of opts).
Proof.
  induction opts as [|o opts IH]; intros st; cbn [fold_left]; [cbn; rewrite app_nil_r; now destruct st|]. rewrite IH. destruct o; cbn; try reflexivity.
  now rewrite <- app_assoc.
Qed.
Lemma parse_written opts ws : Forall2 written opts ws -> parse_args (concat ws) =
  match last_of crate_of opts None with
  | Some c => Ret (mkRustcArgs (match last_of extra_of opts None with Some e => e | None => [] end) c (last_of out_of opts None) (select extern_of opts))
  | None => Fail (lit "missing `--crate-name` argument")
  end.
Proof.
  intros F. unfold parse_args. rewrite <- (app_nil_r (concat ws)), (loop_written opts ws [] _ F). cbn [parse_loop bind]. rewrite fold_apply. reflexivity.
Qed.

Theorem c47_read opts ws : Forall2 written opts ws ->
  (forall a, parse_args (concat ws) = Ret a <->
     latest crate_of opts (Some (ra_crate a)) /\ (exists e, latest extra_of opts e /\ ra_extra a = match e with Some e => e | None => [] end) /\
     latest out_of opts (ra_out a) /\ ra_externs a = select extern_of opts) /\
  (latest crate_of opts None -> exists m, parse_args (concat ws) = Fail m).
Proof.
  intros F. rewrite (parse_written opts ws F). pose proof (last_of_latest crate_of opts) as Lc. pose proof (last_of_latest extra_of opts) as Le. pose proof (last_of_latest out_of opts) as Lo.
  split.
  - intros [e c d x]. cbn [ra_crate ra_extra ra_out ra_externs]. split.
    + intros E. destruct (last_of crate_of opts None) as [c'|]; [|discriminate]. injection E as <- <- <- <-. split; [exact Lc|]. split; [exists (last_of extra_of opts None); now split|]. split; [exact Lo | reflexivity].
    + intros [C [[e' [Ee ->]] [O ->]]]. rewrite (latest_unique _ _ _ _ Lc C), (latest_unique _ _ _ _ Le Ee), (latest_unique _ _ _ _ Lo O). reflexivity.
  - intros N. rewrite (latest_unique _ _ _ _ Lc N). now eexists.
Qed.
Theorem c47_total args : exists opts ws tail, Forall2 written opts ws /\ args = concat ws ++ tail /\
  (tail = [] \/ dangling tail /\ exists m, parse_args args = Fail m).
Proof.
  destruct (every_args args) as [opts [ws [tail [F [E T]]]]]. exists opts, ws, tail. split; [exact F|]. split; [exact E|]. destruct T as [T|D]; [now left|]. right. split; [exact D|].
  rewrite E. unfold parse_args. rewrite (loop_written opts ws tail _ F).
  destruct (dangling_fails tail (fold_left (fun s o => apply o s) opts (mkParsing None None None [])) D) as [m ->]. now exists m.
Qed.

(** ** The process *)
Lemma select_app {A B} (f : A -> option B) l1 l2 : select f (l1 ++ l2) = select f l1 ++ select f l2.
Proof. induction l1 as [|x l1 IH]; cbn; [reflexivity|]. destruct (f x); cbn; now rewrite IH. Qed.
Lemma rlib_no_commands es : commands (rlib_lines es) = [].
Proof.
  unfold commands. induction es as [|e es IH]; [reflexivity|]. cbn [rlib_lines flat_map]. rewrite select_app. unfold rlib_lines in IH. rewrite IH.
  destruct (str_eqb (ex_name e) compiler_builtins), (ex_path e); reflexivity.
Qed.
Definition rlib_notes (es : list extern) : list note :=
  select (fun e => if str_eqb (ex_name e) compiler_builtins then match ex_path e with Some p => Some (NRlib p) | None => None end else None) es.
Lemma rlib_errors es : errors (rlib_lines es) = map note_line (rlib_notes es).
Proof.
  unfold errors, rlib_notes. induction es as [|e es IH]; [reflexivity|]. cbn [rlib_lines flat_map select]. rewrite select_app. unfold rlib_lines in IH. rewrite IH.
  destruct (str_eqb (ex_name e) compiler_builtins), (ex_path e); reflexivity.
Qed.
Lemma rlib_none es : printed (rlib_lines es) = [].
Proof.
  unfold printed. induction es as [|e es IH]; [reflexivity|]. cbn [rlib_lines flat_map]. rewrite select_app. unfold rlib_lines in IH. rewrite IH.
  destruct (str_eqb (ex_name e) compiler_builtins), (ex_path e); reflexivity.
Qed.

(** What the wrapper injects and reports, given what it extracted. *)
Definition injected (builtins : bool) : list str :=
  if builtins then [lit "--emit=llvm-ir"; lit "-Zemit-stack-sizes"] else [lit "-Zemit-stack-sizes"].
Definition reports (a : rustc_args) : list note :=
  rlib_notes (ra_externs a) ++
  (if str_eqb (ra_crate a) compiler_builtins then match ra_out a with Some d => [NLl (d ++ lit "/compiler_builtins" ++ ra_extra a ++ lit ".ll")] | None => [] end else []).
Definition can_run (a : rustc_args) : Prop := ra_crate a = compiler_builtins -> ra_out a <> None.
Lemma wrap_runs exe rustc args f a : parse_args args = Ret a -> can_run a ->
  let all := injected (str_eqb (ra_crate a) compiler_builtins) ++ args in
  commands (fst (wrap (exe :: rustc :: args) f)) = [(rustc, all)] /\ errors (fst (wrap (exe :: rustc :: args) f)) = map note_line (reports a) /\
  snd (wrap (exe :: rustc :: args) f) = (let* code := f rustc all in Ret (match code with Some c => c | None => (-1)%Z end)).
Proof.
  intros E C all. unfold wrap. cbn [skipn]. rewrite E. unfold reports. unfold injected in all. unfold commands, errors. unfold ibind, lift, say, iret. cbn [fst snd app].
  destruct (str_eqb_spec (ra_crate a) compiler_builtins) as [Ec|Nc].
  - destruct (ra_out a) as [d|] eqn:Eo; [|now destruct (C Ec)]. cbn [fst snd app]. change (lit "--emit=llvm-ir" :: lit "-Zemit-stack-sizes" :: args) with all. rewrite !select_app. cbn [select fst].
    destruct (f rustc all) as [code| | |]; cbn [fst snd app select bind]; fold (commands (rlib_lines (ra_externs a))); fold (errors (rlib_lines (ra_externs a)));
      rewrite rlib_no_commands, rlib_errors, map_app, Ec; now repeat split.
  - cbn [fst snd app]. change (lit "-Zemit-stack-sizes" :: args) with all. rewrite !select_app. cbn [select fst].
    destruct (f rustc all) as [code| | |]; cbn [fst snd app select bind]; fold (commands (rlib_lines (ra_externs a))); fold (errors (rlib_lines (ra_externs a)));
      rewrite rlib_no_commands, rlib_errors, !app_nil_r; now repeat split.
Qed.
Lemma wrap_stops exe rustc args f : (forall a, parse_args args = Ret a -> ~ can_run a) ->
  commands (fst (wrap (exe :: rustc :: args) f)) = [] /\ exists m, snd (wrap (exe :: rustc :: args) f) = Fail m.
Proof.
  intros H. unfold wrap. cbn [skipn]. destruct (every_args args) as [opts [ws [tail [F [E T]]]]].
  assert (P : (exists a, parse_args args = Ret a) \/ exists m, parse_args args = Fail m).
  { destruct T as [-> | D].
    - rewrite app_nil_r in E. subst args. rewrite (parse_written opts ws F). destruct (last_of crate_of opts None); [left | right]; now eexists.
    - right. subst args. unfold parse_args. rewrite (loop_written opts ws tail _ F).
      destruct (dangling_fails tail (fold_left (fun s o => apply o s) opts (mkParsing None None None [])) D) as [m ->]. now exists m. }
  destruct P as [[a Ea] | [m Em]].
  - specialize (H a Ea). rewrite Ea. unfold commands. unfold ibind, lift, say, iret. cbn [fst snd app]. destruct (str_eqb_spec (ra_crate a) compiler_builtins) as [Ec|Nc]; [|destruct H; now intros].
    destruct (ra_out a) as [d|] eqn:Eo; [destruct H; intros _; now rewrite Eo|]. cbn [fst snd app]. rewrite !app_nil_r. fold (commands (rlib_lines (ra_externs a))). rewrite rlib_no_commands.
    split; [reflexivity | eexists; reflexivity].
  - rewrite Em. cbn. split; [reflexivity | now exists m].
Qed.

Theorem c46_wrap exe rustc args f :
  let t := wrap (exe :: rustc :: args) f in
  (forall cmd all, In (cmd, all) (commands (fst t)) -> commands (fst t) = [(rustc, all)] /\
     exists flags opts ws, Forall2 written opts ws /\ args = concat ws /\ all = flags ++ args /\
       ((flags = [lit "-Zemit-stack-sizes"] /\ ~ latest crate_of opts (Some (lit "compiler_builtins"))) \/
        (flags = [lit "--emit=llvm-ir"; lit "-Zemit-stack-sizes"] /\ latest crate_of opts (Some (lit "compiler_builtins")))) /\
       (forall code, f rustc all = Ret code -> snd t = Ret (match code with Some c => c | None => (-1)%Z end))) /\
  (commands (fst t) = [] -> exists m, snd t = Fail m) /\
  (forall opts ws, Forall2 written opts ws -> args = concat ws -> ~ latest crate_of opts None ->
     (latest crate_of opts (Some (lit "compiler_builtins")) -> ~ latest out_of opts None) -> commands (fst t) <> []).
Proof.
  intros t. subst t.
  assert (D : (exists a, parse_args args = Ret a /\ can_run a) \/ forall a, parse_args args = Ret a -> ~ can_run a).
  { destruct (parse_args args) as [a| | |] eqn:E; try (right; intros a0 E0; discriminate).
    destruct (str_dec (ra_crate a) compiler_builtins) as [Ec|Nc].
    - destruct (ra_out a) eqn:Eo; [left; exists a; split; [reflexivity|]; intros _; rewrite Eo; discriminate|].
      right. intros a0 E0 C. injection E0 as <-. now apply (C Ec).
    - left. exists a. split; [reflexivity|]. intros K. now destruct Nc. }
  destruct D as [[a [E C]] | N].
  - destruct (wrap_runs exe rustc args f a E C) as [K1 [K2 K3]].
    set (t := wrap (exe :: rustc :: args) f) in *. split; [|split].
    + intros cmd all I. rewrite K1 in I |- *. destruct I as [I|[]]. injection I as <- <-. split; [reflexivity|].
      destruct (every_args args) as [opts [ws [tail [F [Ea T]]]]].
      assert (Ew : args = concat ws).
      { destruct T as [-> | D]; [now rewrite app_nil_r in Ea|]. exfalso. rewrite Ea in E. unfold parse_args in E. rewrite (loop_written opts ws tail _ F) in E.
        destruct (dangling_fails tail (fold_left (fun s o => apply o s) opts (mkParsing None None None [])) D) as [m Em]. rewrite Em in E. discriminate. }
      exists (injected (str_eqb (ra_crate a) compiler_builtins)), opts, ws. split; [exact F|]. split; [exact Ew|]. split; [reflexivity|].
      assert (L : latest crate_of opts (Some (ra_crate a))). { rewrite Ew in E. apply (proj1 (c47_read opts ws F)) in E. tauto. }
      split.
      * destruct (str_eqb_spec (ra_crate a) compiler_builtins) as [Ec|Nc].
        -- right. split; [reflexivity|]. now rewrite Ec in L.
        -- left. split; [reflexivity|]. intros L'. pose proof (latest_unique _ _ _ _ L L') as K. injection K as K. now apply Nc.
      * intros code Ef. rewrite K3, Ef. reflexivity.
    + rewrite K1. discriminate.
    + intros. rewrite K1. discriminate.
  - destruct (wrap_stops exe rustc args f N) as [K1 K2]. set (t := wrap (exe :: rustc :: args) f) in *. split; [|split].
    + intros cmd all I. rewrite K1 in I. destruct I.
    + intros _. exact K2.
    + intros opts ws F -> Nn Bo. exfalso. rewrite (parse_written opts ws F) in N. pose proof (last_of_latest crate_of opts) as Lc. pose proof (last_of_latest out_of opts) as Lo.
      destruct (last_of crate_of opts None) as [c|] eqn:Ec; [|now apply Nn]. apply (N _ eq_refl). intros Eb. cbn in Eb |- *. subst c. intros K. apply (Bo Lc). now rewrite K in Lo.
Qed.
(** The arguments have to be UTF-8. *)
Lemma wrapper_wrap utf8 argv f : Forall (fun a => utf8 a = true) argv -> wrapper utf8 argv f = wrap argv f.
Proof. intros F. unfold wrapper. rewrite (proj2 (forallb_forall utf8 argv)); [reflexivity|]. now apply Forall_forall. Qed.
Theorem c46_wrapper utf8 exe rustc args f :
  let t := wrapper utf8 (exe :: rustc :: args) f in
  (forall cmd all, In (cmd, all) (commands (fst t)) -> commands (fst t) = [(rustc, all)] /\
     exists flags opts ws, Forall2 written opts ws /\ args = concat ws /\ all = flags ++ args /\
       ((flags = [lit "-Zemit-stack-sizes"] /\ ~ latest crate_of opts (Some (lit "compiler_builtins"))) \/
        (flags = [lit "--emit=llvm-ir"; lit "-Zemit-stack-sizes"] /\ latest crate_of opts (Some (lit "compiler_builtins")))) /\
       (forall code, f rustc all = Ret code -> snd t = Ret (match code with Some c => c | None => (-1)%Z end))) /\
  (commands (fst t) = [] -> forall code, snd t <> Ret code) /\
  (commands (fst t) <> [] <-> Forall (fun a => utf8 a = true) (exe :: rustc :: args) /\
     exists opts ws, Forall2 written opts ws /\ args = concat ws /\ ~ latest crate_of opts None /\
       (latest crate_of opts (Some (lit "compiler_builtins")) -> ~ latest out_of opts None)).
Proof.
  intros t. subst t. destruct (forallb utf8 (exe :: rustc :: args)) eqn:U.
  - assert (Fa : Forall (fun a => utf8 a = true) (exe :: rustc :: args)) by (apply Forall_forall; now apply forallb_forall). rewrite (wrapper_wrap utf8 _ f Fa).
    destruct (c46_wrap exe rustc args f) as [A [B C]]. split; [exact A|]. split; [intros E code K; destruct (B E) as [m Em]; congruence|]. split.
    + intros N. split; [exact Fa|]. destruct (commands (fst (wrap (exe :: rustc :: args) f))) as [|[cmd all] l] eqn:E; [now destruct N|].
      assert (P : exists a, parse_args args = Ret a /\ can_run a).
      { destruct (parse_args args) as [a| | |] eqn:Ea; try (destruct (wrap_stops exe rustc args f) as [K _]; [intros a0 E0; congruence | congruence]).
        exists a. split; [reflexivity|]. intros Eb Eo. destruct (wrap_stops exe rustc args f) as [K _]; [|congruence]. intros a0 E0 R. rewrite Ea in E0. injection E0 as <-. exact (R Eb Eo). }
      destruct P as [a [Ea R]]. destruct (every_args args) as [opts [ws [tail [F [Ew T]]]]]. assert (Tn : tail = []).
      { destruct T as [T|D]; [exact T|]. exfalso. rewrite Ew in Ea. unfold parse_args in Ea. rewrite (loop_written opts ws tail _ F) in Ea.
        destruct (dangling_fails tail (fold_left (fun s o => apply o s) opts (mkParsing None None None [])) D) as [m Em]. rewrite Em in Ea. discriminate. }
      subst tail. rewrite app_nil_r in Ew. exists opts, ws. split; [exact F|]. split; [exact Ew|]. rewrite Ew in Ea. apply (proj1 (c47_read opts ws F)) in Ea. destruct Ea as [Lc [_ [Lo _]]].
      split; [intros K; pose proof (latest_unique _ _ _ _ Lc K) as X; discriminate X|]. intros K Ko. pose proof (latest_unique _ _ _ _ Lc K) as X. injection X as X. apply (R X). exact (latest_unique _ _ _ _ Lo Ko).
    + intros [_ [opts [ws [F [Ew [N O]]]]]]. exact (C opts ws F Ew N O).
  - unfold wrapper. rewrite U. cbn. split; [intros cmd all []|]. split; [intros _ code; discriminate|]. split; [intros N; now destruct N|]. intros [Fa _]. exfalso.
    rewrite Forall_forall in Fa. rewrite (proj2 (forallb_forall utf8 (exe :: rustc :: args))) in U; [discriminate U | exact Fa].
Qed.
