(** Lemmas on paths, lines and the touched file. *)
From Verif Require Import M_base L_base M_names L_names M_wrapper M_driver S_driver L_driver1 L_driver2.

Lemma rsplit_slash a b : ~ In "/"%char b -> rsplit_once (lit "/") (a ++ "/"%char :: b) = Some (a, b).
Proof.
  intros N. induction a as [|c a IH].
  - cbn [app]. assert (K : rsplit_once (lit "/") b = None).
    { apply rsplit_once_none; [discriminate|]. intros x y E. apply N. rewrite E. apply in_or_app. right. now left. }
    cbn [rsplit_once]. rewrite K. reflexivity.
  - cbn [app rsplit_once]. rewrite IH. reflexivity.
Qed.
Lemma no_slash_none s : ~ In "/"%char s -> rsplit_once (lit "/") s = None.
Proof. intros N. apply rsplit_once_none; [discriminate|]. intros x y ->. apply N. apply in_or_app. right. now left. Qed.
Lemma last_slash (s : str) : ~ In "/"%char s \/ exists d n, s = d ++ "/"%char :: n /\ ~ In "/"%char n.
Proof.
  induction s as [|c s [IH|[d [n [-> IH]]]]]; [left; intros []| |right; now exists (c :: d), n].
  destruct (Ascii.eqb_spec c "/") as [->|N]; [right; now exists [], s|]. left. intros [E|I]; [now apply N | now apply IH].
Qed.
Lemma holder_parent path : holder path (parent path).
Proof.
  unfold parent. destruct (last_slash path) as [N|[d [n [-> N]]]].
  - rewrite no_slash_none by exact N. now apply ho_here.
  - rewrite rsplit_slash by exact N. destruct d as [|c d]; [now apply (ho_root n)|]. change ((c :: d) ++ "/"%char :: n) with ((c :: d) ++ lit "/" ++ n). apply ho_dir; [discriminate | exact N].
Qed.
Lemma holder_fun path d : holder path d -> d = parent path.
Proof.
  unfold parent. intros H. destruct H as [n N|n N|d n D N].
  - now rewrite no_slash_none.
  - change (lit "/" ++ n) with ([] ++ "/"%char :: n). now rewrite rsplit_slash.
  - change (d ++ lit "/" ++ n) with (d ++ "/"%char :: n). rewrite rsplit_slash by exact N. now destruct d.
Qed.
Lemma rev_last (d : str) c r : rev d = c :: r -> d = rev r ++ [c].
Proof. intros E. rewrite <- (rev_involutive d), E. reflexivity. Qed.
Lemma join_inside d n : inside d n (join d n).
Proof.
  unfold join. destruct (rev d) as [|c r] eqn:E.
  - apply in_here. rewrite <- (rev_involutive d), E. reflexivity.
  - apply rev_last in E. destruct (Ascii.eqb_spec c "/") as [->|N]; [now apply in_slash with (rev r)|]. apply in_dir; [rewrite E; now destruct (rev r)|].
    intros d' K. rewrite E in K. apply app_inj_tail in K. destruct K as [_ K]. now apply N.
Qed.
Lemma inside_fun d n f : inside d n f -> f = join d n.
Proof.
  unfold join. intros H. destruct H as [->|d' E|N S]; [reflexivity| |].
  - rewrite E, rev_app_distr. reflexivity.
  - destruct (rev d) as [|c r] eqn:E; [destruct N; rewrite <- (rev_involutive d), E; reflexivity|]. apply rev_last in E. destruct (Ascii.eqb_spec c "/") as [->|K]; [destruct (S (rev r) E) | reflexivity].
Qed.
Lemma stem_ext_any name stem ext : ~ In "."%char ext -> (stem_ext name = Some (stem, ext) <-> stem <> [] /\ name = stem ++ "."%char :: ext).
Proof.
  intros X. unfold stem_ext. split.
  - destruct (rsplit_once (lit ".") name) as [[[|c b] a]|] eqn:E; try discriminate. intros K. injection K as <- ->. split; [discriminate | now apply rsplit_dot_inv in E].
  - intros [N ->]. rewrite rsplit_dot by exact X. destruct stem; [now destruct N | reflexivity].
Qed.
Lemma is_rs_spec f : is_rs f = true <-> rust_file f.
Proof.
  assert (B : exists d, f = d ++ base_name f /\ ~ In "/"%char (base_name f) /\ (d = [] \/ exists d', d = d' ++ lit "/")).
  { unfold base_name. destruct (last_slash f) as [N|[d [n [-> N]]]].
    - rewrite no_slash_none by exact N. exists []. split; [reflexivity|]. split; [exact N | now left].
    - rewrite rsplit_slash by exact N. exists (d ++ lit "/"). split; [now rewrite <- app_assoc|]. split; [exact N | right; now exists d]. }
  assert (R : ~ In "."%char (lit "rs")) by (cbn; intuition discriminate).
  unfold is_rs. split.
  - destruct (stem_ext (base_name f)) as [[stem ext]|] eqn:E; [|discriminate]. intros K. apply str_eqb_eq in K. subst ext. apply (stem_ext_any _ _ _ R) in E. destruct E as [N E].
    destruct B as [d [F [S D]]]. exists d, stem. split; [rewrite F, E; reflexivity|]. split; [exact N|]. split; [|exact D]. intros I. apply S. rewrite E. apply in_or_app. now left.
  - intros [d [stem [F [N [S D]]]]]. assert (E : base_name f = stem ++ lit ".rs").
    { assert (S' : ~ In "/"%char (stem ++ lit ".rs")). { intros I. apply in_app_or in I. destruct I as [I|I]; [now apply S|]. cbn in I. intuition discriminate. }
      unfold base_name. rewrite F. destruct D as [->|[d' ->]]; [cbn [app]; now rewrite no_slash_none|]. rewrite <- app_assoc. cbn [app lit list_ascii_of_string]. change (stem ++ ["."; "r"; "s"]%char) with (stem ++ lit ".rs"). now rewrite rsplit_slash. }
    rewrite E. rewrite (proj2 (stem_ext_any (stem ++ lit ".rs") stem (lit "rs") R)); [apply str_eqb_refl | now split].
Qed.

(** ** Lines *)
Lemma line_here (l s : str) : ~ In "010"%char l -> (forall r, l <> r ++ ["013"%char]) ->
  (exists s', s = l ++ s' /\ (s' = [] \/ (exists b, s' = "010"%char :: b) \/ exists b, s' = "013"%char :: "010"%char :: b)) ->
  l = [] /\ s = [] \/ exists rest, lines_from [] s = l :: rest.
Proof.
  intros N C [s' [-> [->|[[b ->]|[b ->]]]]].
  - rewrite app_nil_r. destruct l as [|c l]; [now left|]. right. exists [].
    assert (X : forall l racc, ~ In "010"%char l -> lines_from racc l = match rev l ++ racc with [] => [] | _ => [rev racc ++ l] end).
    { clear. induction l as [|c l IH]; intros racc N; cbn [lines_from rev app]; [rewrite app_nil_r; reflexivity|].
      destruct (Ascii.eqb_spec c "010") as [->|D]; [destruct N; now left|]. rewrite IH by (intros I; apply N; now right). cbn [rev]. rewrite <- !app_assoc. cbn [app]. reflexivity. }
    rewrite X by exact N. cbn [rev]. rewrite app_nil_r. now destruct (rev l).
  - right. rewrite lines_from_app by exact N. rewrite app_nil_r. eexists. f_equal. unfold strip_cr. destruct (rev l) as [|c r] eqn:E; [rewrite <- (rev_involutive l), E; reflexivity|].
    apply rev_last in E. destruct (Ascii.eqb_spec c "013") as [->|D]; [destruct (C (rev r) E)|]. cbn [rev]. symmetry. exact E.
  - right. change (l ++ "013"%char :: "010"%char :: b) with (l ++ ["013"%char] ++ "010"%char :: b). rewrite app_assoc. rewrite lines_from_app.
    + rewrite app_nil_r, rev_app_distr. cbn [rev app strip_cr]. change (Ascii.eqb "013" "013") with true. cbv iota. rewrite rev_involutive. eexists. reflexivity.
    + intros I. apply in_app_or in I. destruct I as [I|[I|[]]]; [now apply N | discriminate I].
Qed.
Lemma first_newline (s : str) : ~ In "010"%char s \/ exists l s', s = l ++ "010"%char :: s' /\ ~ In "010"%char l.
Proof.
  induction s as [|c s IH]; [left; intros []|]. destruct (Ascii.eqb_spec c "010") as [->|N]; [right; exists [], s; split; [reflexivity | intros []]|].
  destruct IH as [IH|[l [s' [-> IH]]]]; [left; intros [E|I]; [now apply N | now apply IH]|]. right. exists (c :: l), s'. split; [reflexivity|]. intros [E|I]; [now apply N | now apply IH].
Qed.
Lemma has_line_spec s l : plain_line l -> l <> [] -> (In l (buf_lines s) <-> has_line s l).
Proof.
  intros [N C] Ne. unfold buf_lines. split.
  - revert s. assert (X : forall n s, length s <= n -> In l (lines_from [] s) -> has_line s l).
    { induction n as [|n IH]; intros s L I.
      - destruct s; [destruct I | cbn in L; lia].
      - destruct (first_newline s) as [F|[x [s' [-> F]]]].
        + assert (Y : forall l racc, ~ In "010"%char l -> In l (lines_from racc l) \/ True) by (intros; now right). clear Y.
          assert (X : forall t racc, ~ In "010"%char t -> forall y, In y (lines_from racc t) -> y = rev racc ++ t).
          { clear. induction t as [|c t IH]; intros racc N y I; cbn [lines_from] in I.
            - destruct racc as [|z racc]; [destruct I|]. destruct I as [<-|[]]. now rewrite app_nil_r.
            - destruct (Ascii.eqb_spec c "010") as [->|D]; [destruct N; now left|]. apply IH in I; [|intros J; apply N; now right]. rewrite I. cbn [rev]. now rewrite <- app_assoc. }
          apply (X s [] F) in I. cbn in I. subst s. exists [], []. split; [now rewrite app_nil_r|]. split; now left.
        + rewrite lines_from_app in I by exact F. rewrite app_nil_r in I. destruct I as [I|I].
          * unfold strip_cr in I. destruct (rev x) as [|c r] eqn:E; [destruct Ne; now symmetry|]. apply rev_last in E. destruct (Ascii.eqb_spec c "013") as [->|D].
            -- subst l. exists [], ("013"%char :: "010"%char :: s'). split; [rewrite E, <- app_assoc; reflexivity|]. split; [now left|]. right. right. now exists s'.
            -- exists [], ("010"%char :: s'). split; [rewrite E, <- I; reflexivity|]. split; [now left|]. right. left. now exists s'.
          * apply IH in I; [|rewrite app_length in L; cbn in L; lia]. destruct I as [a [b [-> [A B]]]]. exists (x ++ "010"%char :: a), b. split; [now rewrite <- app_assoc|]. split; [|exact B].
            right. destruct A as [->|[a' ->]]; [now exists x | exists (x ++ "010"%char :: a'); now rewrite <- app_assoc]. }
    intros s I. exact (X (length s) s (le_n _) I).
  - intros [a [b [-> [A B]]]]. assert (H : In l (lines_from [] (l ++ b))).
    { destruct (line_here l (l ++ b) N C) as [[K _]|[rest ->]]; [now exists b | now destruct Ne | now left]. }
    destruct A as [->|[a' ->]]; [exact H|]. rewrite <- app_assoc. cbn [app]. generalize dependent (l ++ b). intros s H.
    assert (X : forall n a, length a <= n -> In l (lines_from [] (a ++ "010"%char :: s))).
    { induction n as [|n IH]; intros a L.
      - destruct a; [|cbn in L; lia]. cbn [app lines_from]. change (Ascii.eqb "010" "010") with true. cbv iota. now right.
      - destruct (first_newline a) as [F|[x [a2 [-> F]]]]; [rewrite lines_from_app by exact F; now right|]. rewrite <- app_assoc. cbn [app]. rewrite lines_from_app by exact F. right. apply IH.
        rewrite app_length in L. cbn in L. lia. }
    exact (X _ a' (le_n _)).
Qed.

(** ** The touched file *)
Lemma is_ok_spec (x : outcome unit) : is_ok x = true <-> x = Ret tt.
Proof. destruct x as [[]| | |]; cbn; intuition discriminate. Qed.
Lemma walk_spec w walk :
  (exists seen, walk = map Ret seen /\ (forall x, In x seen -> ~ rust_file x) /\ touch_first w walk = ([], Ret tt)) \/
  (exists seen f rest, walk = map Ret seen ++ Ret f :: rest /\ (forall x, In x seen -> ~ rust_file x) /\ rust_file f /\ w_set_times w f = Ret tt /\ touch_first w walk = ([ETouch f], Ret tt)) \/
  (fst (touch_first w walk) = [] /\ (forall z, snd (touch_first w walk) <> Ret z) /\
   ((exists seen f rest, walk = map Ret seen ++ Ret f :: rest /\ (forall x, In x seen -> ~ rust_file x) /\ rust_file f /\ w_set_times w f <> Ret tt) \/
    (exists seen e rest, walk = map Ret seen ++ e :: rest /\ (forall x, In x seen -> ~ rust_file x) /\ forall z, e <> Ret z))).
Proof.
  induction walk as [|e walk IH]; cbn [touch_first].
  - left. exists []. split; [reflexivity|]. split; [intros x [] | reflexivity].
  - assert (Stop : forall e, (forall z, e <> Ret z) -> ((exists seen f rest, e :: walk = map Ret seen ++ Ret f :: rest /\ (forall x, In x seen -> ~ rust_file x) /\ rust_file f /\ w_set_times w f <> Ret tt) \/
      (exists seen e0 rest, e :: walk = map Ret seen ++ e0 :: rest /\ (forall x, In x seen -> ~ rust_file x) /\ forall z, e0 <> Ret z))).
    { intros e0 H. right. exists [], e0, walk. split; [reflexivity|]. split; [intros x [] | exact H]. }
    destruct e as [path|m|m|]; [|right; right; split; [reflexivity|]; split; [intros z; discriminate|]; apply Stop; intros z; discriminate..].
    unfold ibind, lift. cbn [fst snd app]. destruct (is_rs path) eqn:R.
    + apply is_rs_spec in R. destruct (w_set_times w path) as [[]|m|m|] eqn:T; cbn [fst snd].
      * right. left. exists [], path, walk. repeat split; auto; intros x [].
      * right. right. split; [reflexivity|]. split; [intros z; discriminate|]. left. exists [], path, walk. repeat split; auto; try (intros x []); rewrite T; discriminate.
      * right. right. split; [reflexivity|]. split; [intros z; discriminate|]. left. exists [], path, walk. repeat split; auto; try (intros x []); rewrite T; discriminate.
      * right. right. split; [reflexivity|]. split; [intros z; discriminate|]. left. exists [], path, walk. repeat split; auto; try (intros x []); rewrite T; discriminate.
    + assert (Nr : ~ rust_file path) by (intros K; apply is_rs_spec in K; congruence).
      assert (Ns : forall seen, (forall x, In x seen -> ~ rust_file x) -> forall x, In x (path :: seen) -> ~ rust_file x) by (intros seen H x [<-|I]; [exact Nr | now apply H]).
      destruct IH as [[seen [-> [H1 H2]]]|[[seen [f [rest [-> [H1 H2]]]]]|[H1 [H2 [[seen [f [rest [-> [H3 H4]]]]]|[seen [e [rest [-> [H3 H4]]]]]]]]]].
      * left. exists (path :: seen). split; [reflexivity|]. split; [now apply Ns | rewrite H2; reflexivity].
      * right. left. exists (path :: seen), f, rest. split; [reflexivity|]. split; [now apply Ns|]. destruct H2 as [H2 [H3 H4]]. split; [exact H2|]. split; [exact H3 | rewrite H4; reflexivity].
      * right. right. split; [exact H1|]. split; [exact H2|]. left. exists (path :: seen), f, rest. split; [reflexivity|]. split; [now apply Ns | exact H4].
      * right. right. split; [exact H1|]. split; [exact H2|]. right. exists (path :: seen), e, rest. split; [reflexivity|]. split; [now apply Ns | exact H4].
Qed.
Lemma touch_spec w : (exists r, touches w r /\ touch w = (match r with Some f => [ETouch f] | None => [] end, Ret tt)) \/ (fst (touch w) = [] /\ (forall z, snd (touch w) <> Ret z)).
Proof.
  unfold touch. cbv zeta. set (m := join (w_root w) (lit "src/main.rs")). set (l := join (w_root w) (lit "src/lib.rs")). set (src := join (w_root w) (lit "src")).
  pose proof (join_inside (w_root w) (lit "src/main.rs")) as Hm. fold m in Hm. pose proof (join_inside (w_root w) (lit "src/lib.rs")) as Hl. fold l in Hl. pose proof (join_inside (w_root w) (lit "src")) as Hs. fold src in Hs.
  destruct (is_ok (w_set_times w m)) eqn:Em; [left; exists (Some m); split; [apply to_main; [exact Hm | now apply is_ok_spec] | reflexivity]|].
  assert (Nm : w_set_times w m <> Ret tt) by (intros K; apply is_ok_spec in K; congruence).
  destruct (is_ok (w_set_times w l)) eqn:El; [left; exists (Some l); split; [now apply to_lib with m; try assumption; apply is_ok_spec | reflexivity]|].
  assert (Nl : w_set_times w l <> Ret tt) by (intros K; apply is_ok_spec in K; congruence).
  destruct (walk_spec w (w_walk w (if w_exists w src then src else w_root w))) as [[seen [H1 [H2 H3]]]|[[seen [f [rest [H1 [H2 [H3 [H4 H5]]]]]]]|[H1 [H2 _]]]].
  - left. exists None. split; [now apply to_none with m l src (if w_exists w src then src else w_root w) seen | exact H3].
  - left. exists (Some f). split; [now apply to_walk with m l src (if w_exists w src then src else w_root w) seen rest | exact H5].
  - right. now split.
Qed.
Lemma touches_touch w r : touches w r -> touch w = (match r with Some f => [ETouch f] | None => [] end, Ret tt).
Proof.
  intros T. unfold touch. cbv zeta. destruct T as [f A B|m f A B C D|m l src d seen f rest A B C D E Ed F G H K|m l src d seen A B C D E Ed F G].
  - apply inside_fun in A. rewrite <- A, B. reflexivity.
  - apply inside_fun in A, C. rewrite <- A, <- C. destruct (is_ok (w_set_times w m)) eqn:Q; [apply is_ok_spec in Q; now destruct B|]. rewrite D. reflexivity.
  - apply inside_fun in A, C, E. rewrite <- A, <- C, <- E. destruct (is_ok (w_set_times w m)) eqn:Q; [apply is_ok_spec in Q; now destruct B|]. destruct (is_ok (w_set_times w l)) eqn:Q'; [apply is_ok_spec in Q'; now destruct D|].
    rewrite <- Ed, F. clear F. induction seen as [|x seen IH]; cbn [map app touch_first]; unfold ibind, lift; cbn [fst snd app].
    + rewrite (proj2 (is_rs_spec f) H), K. reflexivity.
    + destruct (is_rs x) eqn:R; [apply is_rs_spec in R; destruct (G x (or_introl eq_refl) R)|]. rewrite IH by (intros y I; apply G; now right). reflexivity.
  - apply inside_fun in A, C, E. rewrite <- A, <- C, <- E. destruct (is_ok (w_set_times w m)) eqn:Q; [apply is_ok_spec in Q; now destruct B|]. destruct (is_ok (w_set_times w l)) eqn:Q'; [apply is_ok_spec in Q'; now destruct D|].
    rewrite <- Ed, F. clear F. induction seen as [|x seen IH]; cbn [map app touch_first]; unfold ibind, lift; cbn [fst snd app]; [reflexivity|].
    destruct (is_rs x) eqn:R; [apply is_rs_spec in R; destruct (G x (or_introl eq_refl) R)|]. rewrite IH by (intros y I; apply G; now right). reflexivity.
Qed.
Lemma touches_fun w a b : touches w a -> touches w b -> a = b.
Proof. intros A B. apply touches_touch in A, B. rewrite A in B. destruct a, b; congruence. Qed.
