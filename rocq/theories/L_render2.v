(** A label reads back only if the name has no backslash. *)
From Verif Require Import M_base M_stack M_graph M_render S_graph S_render L_base L_render.

(** How a dot reader sees an escaped name: to the end, with the last backslash waiting for another character, or with the
    string ended too early. *)
Inductive way := Inside | Open | Cut (rest : str).
Inductive walk : str -> str -> way -> Prop :=
| wk_nil : walk [] [] Inside
| wk_open : walk [backslash] [] Open
| wk_cut n : walk (backslash :: dquote :: n) [backslash; backslash] (Cut n)
| wk_join n r w : walk n r w -> walk (backslash :: "010"%char :: n) r w
| wk_esc c n r w : Ascii.eqb c dquote = false -> Ascii.eqb c "010" = false -> walk n r w -> walk (backslash :: c :: n) (backslash :: c :: r) w
| wk_quote n r w : walk n r w -> walk (dquote :: n) (dquote :: r) w
| wk_char c n r w : Ascii.eqb c dquote = false -> Ascii.eqb c backslash = false -> walk n r w -> walk (c :: n) (c :: r) w.

Lemma walk_total k : forall n, length n <= k -> exists r w, walk n r w.
Proof.
  induction k as [|k IH]; intros n H.
  - destruct n; [|inversion H]. exists [], Inside. constructor.
  - destruct n as [|c n]; [exists [], Inside; constructor|]. cbn in H.
    destruct (Ascii.eqb c dquote) eqn:Eq.
    + apply Ascii.eqb_eq in Eq. subst c. destruct (IH n ltac:(lia)) as [r [w W]]. exists (dquote :: r), w. now constructor.
    + destruct (Ascii.eqb c backslash) eqn:Eb.
      * apply Ascii.eqb_eq in Eb. subst c. destruct n as [|d n]; [exists [], Open; constructor|]. cbn in H.
        destruct (Ascii.eqb d dquote) eqn:Ed; [apply Ascii.eqb_eq in Ed; subst d; eexists; eexists; apply wk_cut|].
        destruct (IH n ltac:(lia)) as [r [w W]].
        destruct (Ascii.eqb d "010") eqn:En; [apply Ascii.eqb_eq in En; subst d; exists r, w; now constructor|].
        exists (backslash :: d :: r), w. now constructor.
      * destruct (IH n ltac:(lia)) as [r [w W]]. exists (c :: r), w. now constructor.
Qed.
Lemma walk_lex n r w : walk n r w -> forall acc s, lex (LStr acc) (escape n ++ s) =
  match w with
  | Inside => lex (LStr (acc ++ r)) s
  | Open => lex (LEsc (acc ++ r)) s
  | Cut n' => omap (cons (TStr (acc ++ r))) (lex (LPlain []) (escape n' ++ s))
  end.
Proof.
  induction 1 as [| |n|n r w W IH|c n r w Hq Hn W IH|n r w W IH|c n r w Hq Hb W IH]; intros acc s.
  - cbn. now rewrite app_nil_r.
  - cbn. now rewrite app_nil_r.
  - cbn. now rewrite <- ?app_assoc.
  - change (lex (LStr acc) (escape (backslash :: "010"%char :: n) ++ s)) with (lex (LStr acc) (escape n ++ s)). apply IH.
  - assert (E : lex (LStr acc) (escape (backslash :: c :: n) ++ s) = lex (LStr (acc ++ [backslash; c])) (escape n ++ s)).
    { cbn [escape]. rewrite Hq. change (Ascii.eqb backslash dquote) with false. cbn [app lex]. change (Ascii.eqb backslash dquote) with false. rewrite Ascii.eqb_refl. cbn [app lex]. now rewrite Hq, Hn. }
    rewrite E, IH. destruct w; now rewrite <- app_assoc.
  - assert (E : lex (LStr acc) (escape (dquote :: n) ++ s) = lex (LStr (acc ++ [dquote])) (escape n ++ s)) by reflexivity.
    rewrite E, IH. destruct w; now rewrite <- app_assoc.
  - assert (E : lex (LStr acc) (escape (c :: n) ++ s) = lex (LStr (acc ++ [c])) (escape n ++ s)).
    { cbn [escape]. rewrite Hq. cbn [app lex]. now rewrite Hq, Hb. }
    rewrite E, IH. destruct w; now rewrite <- app_assoc.
Qed.
(** What becomes of the first line of the label. *)
Lemma walk_line n r w : walk n r w -> forall acc s,
  (exists u ls, label_lines acc false (r ++ s) = (acc ++ u) :: ls /\ length u < length n) \/
  (exists u, label_lines acc false (r ++ s) = label_lines (acc ++ u) false s /\ length u <= length n /\ (In backslash n -> length u < length n)).
Proof.
  induction 1 as [| |n|n r w W IH|c n r w Hq Hn W IH|n r w W IH|c n r w Hq Hb W IH]; intros acc s.
  - right. exists []. rewrite app_nil_r. now split; [|split].
  - right. exists []. rewrite app_nil_r. split; [reflexivity|]. cbn. split; [lia | lia].
  - right. exists [backslash]. split; [reflexivity|]. cbn. split; lia.
  - destruct (IH acc s) as [[u [ls [E L]]]|[u [E [L _]]]]; [left; exists u, ls | right; exists u]; (split; [exact E|]); cbn; [lia|]. split; lia.
  - cbn [app]. destruct (Ascii.eqb c "n" || Ascii.eqb c "l" || Ascii.eqb c "r") eqn:Ec.
    + left. exists [], (label_lines [] false (r ++ s)). rewrite app_nil_r. split; [|cbn; lia]. cbn [label_lines]. rewrite Ascii.eqb_refl. cbn [label_lines]. now rewrite Ec.
    + assert (E : label_lines acc false (backslash :: c :: r ++ s) = label_lines (acc ++ [c]) false (r ++ s)).
      { cbn [label_lines]. rewrite Ascii.eqb_refl. cbn [label_lines]. now rewrite Ec. }
      rewrite E. destruct (IH (acc ++ [c]) s) as [[u [ls [K L]]]|[u [K [L _]]]]; [left; exists (c :: u), ls | right; exists (c :: u)]; rewrite K, <- app_assoc; (split; [reflexivity|]); cbn; [lia|]. split; lia.
  - assert (E : label_lines acc false ((dquote :: r) ++ s) = label_lines (acc ++ [dquote]) false (r ++ s)) by reflexivity.
    rewrite E. destruct (IH (acc ++ [dquote]) s) as [[u [ls [K L]]]|[u [K [L M]]]]; [left; exists (dquote :: u), ls | right; exists (dquote :: u)]; rewrite K, <- app_assoc; (split; [reflexivity|]); cbn [length In]; [lia|].
    split; [lia|]. intros [Z|I]; [discriminate Z|]. specialize (M I). lia.
  - assert (E : label_lines acc false ((c :: r) ++ s) = label_lines (acc ++ [c]) false (r ++ s)) by (cbn; now rewrite Hb).
    rewrite E. destruct (IH (acc ++ [c]) s) as [[u [ls [K L]]]|[u [K [L M]]]]; [left; exists (c :: u), ls | right; exists (c :: u)]; rewrite K, <- app_assoc; (split; [reflexivity|]); cbn [length In]; [lia|].
    split; [lia|]. intros [Z|I]; [subst c; rewrite Ascii.eqb_refl in Hb; discriminate|]. specialize (M I). lia.
Qed.

Definition max_part (nd : node) : str := match nmax nd with Some m => lit "max " ++ show_max m | None => [] end.
Definition local_part (nd : node) : str := lit "local = " ++ show_local (nlocal nd).
Lemma max_plain nd : no_backslash (max_part nd).
Proof.
  unfold max_part. destruct (nmax nd) as [m|]; [|intros []]. apply no_backslash_app; [apply lit_no_backslash; reflexivity|].
  destruct m; cbn [show_max]; (apply no_backslash_app; [apply lit_no_backslash; reflexivity | apply num_no_backslash]).
Qed.
Lemma local_plain nd : no_backslash (local_part nd).
Proof. apply no_backslash_app; [apply lit_no_backslash; reflexivity|]. destruct (nlocal nd); [apply num_no_backslash | apply lit_no_backslash; reflexivity]. Qed.
Lemma read_first s n m l : read_label s = Some (n, m, l) -> exists ls, label_lines [] false s = n :: ls /\ length ls = match m with Some _ => 2 | None => 1 end.
Proof.
  unfold read_label. destruct (label_lines [] false s) as [|a [|b [|c [|d ls]]]]; try discriminate.
  - destruct (read_local b); [|discriminate]. intros E. injection E as <- <- _. now exists [b].
  - destruct (read_max b); [|discriminate]. destruct (read_local c); [|discriminate]. intros E. injection E as <- <- _. now exists [b; c].
Qed.
Lemma lines_last w acc : no_backslash w -> label_lines acc false w = [acc ++ w].
Proof. intros H. rewrite <- (app_nil_r w) at 1. now rewrite label_plain. Qed.

(** The rest of a label, behind the first break. *)
Definition tail_part (nd : node) : str := match nmax nd with Some _ => max_part nd ++ esc_n ++ local_part nd | None => local_part nd end.
Lemma tail_lines nd acc : exists x ls, label_lines acc false (tail_part nd) = x :: ls /\ length ls = match nmax nd with Some _ => 1 | None => 0 end.
Proof.
  unfold tail_part. destruct (nmax nd) as [m|] eqn:E.
  - rewrite label_plain by apply max_plain. rewrite label_break, lines_last by apply local_plain. now eexists; eexists.
  - rewrite lines_last by apply local_plain. now eexists; eexists.
Qed.
Lemma tail_lex nd acc s : lex (LStr acc) (tail_part nd ++ q ++ s) = omap (cons (TStr (acc ++ tail_part nd))) (lex (LPlain []) s).
Proof.
  assert (P : forall w, no_backslash w -> ~ In dquote w -> forall a x, lex (LStr a) (w ++ x) = lex (LStr (a ++ w)) x).
  { intros w Hb Hq a x. apply lex_str_plain. intros c Hc. split; apply Ascii.eqb_neq; intros ->; [now apply Hq | now apply Hb]. }
  assert (Dn : forall n, ~ In dquote (show_N n)). { intros n I. pose proof (show_N_digits n) as H. rewrite forallb_forall in H. specialize (H _ I). discriminate H. }
  assert (Ql : ~ In dquote (local_part nd)).
  { unfold local_part. intros I. apply in_app_or in I. destruct I as [I|I]; [cbn in I; intuition discriminate|]. destruct (nlocal nd); cbn [show_local] in I; [now apply Dn in I | cbn in I; intuition discriminate]. }
  assert (Qm : ~ In dquote (max_part nd)).
  { unfold max_part. intros I. destruct (nmax nd) as [m|]; [|destruct I]. apply in_app_or in I. destruct I as [I|I]; [cbn in I; intuition discriminate|].
    destruct m; cbn [show_max] in I; apply in_app_or in I; (destruct I as [I|I]; [cbn in I; intuition discriminate | now apply Dn in I]). }
  assert (C : forall a x, lex (LStr a) (q ++ x) = omap (cons (TStr a)) (lex (LPlain []) x)) by reflexivity.
  unfold tail_part. destruct (nmax nd) as [m|].
  - rewrite <- !app_assoc, P by (exact Qm || apply max_plain). rewrite lex_str_esc_n, P by (exact Ql || apply local_plain). rewrite C, <- !app_assoc. reflexivity.
  - rewrite P by (exact Ql || apply local_plain). apply C.
Qed.

(** Every node line: the reader fails, or finds a label; the label says what it should only if the name has no backslash. *)
Lemma node_line_any demangle i nd rest :
  lex (LPlain []) (dot_node demangle i nd ++ rest) = None \/
  exists raw ts, lex (LPlain []) (dot_node demangle i nd ++ rest) = Some ([TId (show_nat i); TLBrack; TId (lit "label"); TEq; TStr raw] ++ ts) /\
    (read_label raw = Some (demangle (nname nd), nmax nd, nlocal nd) -> no_backslash (demangle (nname nd))).
Proof.
  set (n := demangle (nname nd)). destruct (walk_total (length n) n (Nat.le_refl _)) as [r [w W]].
  assert (E : exists tl, dot_node demangle i nd ++ rest = lit "    " ++ show_N (N.of_nat i) ++ lit " [label=" ++ q ++ escape n ++ esc_n ++ tail_part nd ++ q ++ tl).
  { eexists. unfold dot_node, show_nat, tail_part, max_part, local_part. fold n. destruct (nmax nd); rewrite <- !app_assoc; reflexivity. }
  destruct E as [tl E]. rewrite E, lex_open. rewrite (walk_lex n r w W), app_nil_l.
  assert (F : forall raw x, (read_label raw = Some (n, nmax nd, nlocal nd) -> no_backslash n) ->
    omap (app [TId (show_N (N.of_nat i)); TLBrack; TId (lit "label"); TEq]) (omap (cons (TStr raw)) x) = None \/
    exists raw' ts, omap (app [TId (show_N (N.of_nat i)); TLBrack; TId (lit "label"); TEq]) (omap (cons (TStr raw)) x) = Some ([TId (show_nat i); TLBrack; TId (lit "label"); TEq; TStr raw'] ++ ts) /\
      (read_label raw' = Some (n, nmax nd, nlocal nd) -> no_backslash n)).
  { intros raw [x|] H; [|now left]. right. exists raw, x. split; [reflexivity | exact H]. }
  destruct w as [| |n'].
  - rewrite lex_str_esc_n, tail_lex. apply F. intros R I. destruct (read_first _ _ _ _ R) as [ls [K _]]. rewrite <- app_assoc in K.
    destruct (walk_line n r Inside W [] (esc_n ++ tail_part nd)) as [[u [ls' [K' L]]]|[u [K' [_ L]]]]; rewrite K' in K.
    + injection K as K _. cbn [app] in K. subst u. lia.
    + rewrite label_break in K. injection K as K _. cbn [app] in K. subst u. specialize (L I). lia.
  - assert (X : lex (LEsc r) (esc_n ++ tail_part nd ++ q ++ tl) = lex (LStr (r ++ [backslash; backslash; "n"%char])) (tail_part nd ++ q ++ tl)).
    { cbn. now rewrite <- app_assoc. }
    rewrite X, tail_lex. apply F. intros R I. destruct (read_first _ _ _ _ R) as [ls [K N]]. rewrite <- app_assoc in K.
    destruct (walk_line n r Open W [] ([backslash; backslash; "n"%char] ++ tail_part nd)) as [[u [ls' [K' L]]]|[u [K' [_ L]]]]; rewrite K' in K.
    + injection K as K _. cbn [app] in K. subst u. lia.
    + assert (Y : label_lines ([] ++ u) false ([backslash; backslash; "n"%char] ++ tail_part nd) = label_lines (u ++ [backslash; "n"%char]) false (tail_part nd)).
      { cbn. now rewrite <- app_assoc. }
      rewrite Y in K. destruct (tail_lines nd (u ++ [backslash; "n"%char])) as [x [ls' [Z M]]]. rewrite Z in K. injection K as _ K. subst ls'. destruct (nmax nd); lia.
  - apply F. intros R I. destruct (read_first _ _ _ _ R) as [ls [K N]].
    destruct (walk_line n r (Cut n') W [] []) as [[u [ls' [K' L]]]|[u [K' [_ L]]]]; rewrite app_nil_r in K'; rewrite K' in K.
    + injection K as K _. cbn [app] in K. subst u. lia.
    + cbn in K. injection K as _ K. subst ls. cbn in N. destruct (nmax nd); discriminate N.
Qed.

Theorem label_iff demangle i nd rest : lex (LPlain []) rest <> None ->
  ((exists raw ts, lex (LPlain []) (dot_node demangle i nd ++ rest) = Some ([TId (show_nat i); TLBrack; TId (lit "label"); TEq; TStr raw] ++ ts) /\
     read_label raw = Some (demangle (nname nd), nmax nd, nlocal nd)) <-> no_backslash (demangle (nname nd))).
Proof.
  intros Hr. split.
  - intros [raw [ts [E R]]]. destruct (node_line_any demangle i nd rest) as [E'|[raw' [ts' [E' H]]]]; rewrite E' in E; [discriminate|]. injection E as -> _. exact (H R).
  - intros Hb. destruct (node_line_reads demangle i nd rest Hb) as [raw [E R]]. destruct (lex (LPlain []) rest) as [x|]; [|now destruct Hr]. cbn [omap] in E. exists raw. eexists. split; [rewrite E; reflexivity | exact R].
Qed.

(** ** The whole file *)
Lemma stmts_open k : forall ts, length ts <= k -> forall a attrs st, stmts (Some (a, attrs)) ts = Some st -> exists more st', st = SNode a (attrs ++ more) :: st'.
Proof.
  induction k as [|k IH]; intros ts L a attrs st E; (destruct ts as [|t ts]; [discriminate|]); [inversion L|]. cbn in L.
  destruct t; try discriminate; cbn in E.
  - destruct ts as [|[] [|[] ts]]; try discriminate; cbn in L; (destruct (IH ts ltac:(lia) _ _ _ E) as [more [st' ->]]; rewrite <- app_assoc; now eexists; eexists).
  - destruct (stmts None ts) as [x|]; [|discriminate]. injection E as <-. exists [], x. now rewrite app_nil_r.
Qed.
Lemma bad_first (P : node -> Prop) (dec : forall x, P x \/ ~ P x) l : (forall x, In x l -> P x) \/ exists a x b, l = a ++ x :: b /\ (forall y, In y a -> P y) /\ ~ P x.
Proof.
  induction l as [|x l IH]; [now left|]. destruct (dec x) as [H|H].
  - destruct IH as [IH|[a [y [b [-> [Ha Hy]]]]]]; [left; intros y [<-|I]; [exact H | now apply IH]|]. right. exists (x :: a), y, b. split; [reflexivity|]. split; [intros z [<-|I]; [exact H | now apply Ha] | exact Hy].
  - right. exists [], x, l. split; [reflexivity|]. split; [intros y [] | exact H].
Qed.
Lemma enum_app {A} (a b : list A) i : enum_from i (a ++ b) = enum_from i a ++ enum_from (i + length a) b.
Proof. revert i; induction a as [|x a IH]; intros i; cbn; [now rewrite Nat.add_0_r|]. rewrite IH. now rewrite Nat.add_succ_r. Qed.
Lemma enum_combine {A} (l : list A) i : enum_from i l = combine (seq i (length l)) l.
Proof. revert i; induction l as [|x l IH]; intros i; simpl; [reflexivity | now rewrite IH]. Qed.

Theorem file_iff demangle g cycles :
  (exists st, read_dot (dot demangle g cycles) = Some st /\
     file_nodes st = map (fun p => (Some (N.of_nat (fst p)), Some (demangle (nname (snd p)), nmax (snd p), nlocal (snd p)), ndashed (snd p)))
                         (combine (seq 0 (node_count g)) (gnodes g))) <->
  (forall nd, In nd (gnodes g) -> no_backslash (demangle (nname nd))).
Proof.
  split.
  2:{ intros H. destruct (dot_read_back demangle g cycles H) as [st [R [N _]]]. now exists st. }
  intros [st [R N]].
  destruct (bad_first (fun nd => no_backslash (demangle (nname nd))) (fun nd => match in_dec ascii_dec backslash (demangle (nname nd)) with left i => or_intror (fun h => h i) | right n => or_introl n end) (gnodes g)) as [H|[a [x [b [E [Ha Hx]]]]]]; [exact H|].
  exfalso. unfold read_dot, dot in R.
  assert (H0 : forall y, lex (LPlain []) (lit "digraph {" ++ nl ++ lit "    node [fontname=" ++ font ++ lit " shape=box]" ++ nl ++ y) =
     omap (app [TId (lit "digraph"); TLBrace; TId (lit "node"); TLBrack; TId (lit "fontname"); TEq; TId font; TId (lit "shape"); TEq; TId (lit "box"); TRBrack]) (lex (LPlain []) y)).
  { intros y. cbn. destruct (lex (LPlain []) y); reflexivity. }
  rewrite H0, E, enum_app, flat_map_app in R. cbn [enum_from flat_map fst snd] in R. clear H0.
  assert (HN : lexes (flat_map (fun p => dot_node demangle (fst p) (snd p)) (enum_from 0 a)) (flat_map (fun p => node_tokens demangle (fst p) (snd p)) (enum_from 0 a))) by (apply lexes_flat; intros p Hp; apply dot_node_lexes, Ha, (enum_In _ 0), Hp).
  rewrite <- !app_assoc, HN in R.
  match type of R with context [lex (LPlain []) (dot_node demangle ?j x ++ ?rest)] => destruct (node_line_any demangle j x rest) as [F|[raw [ts [F K]]]]; rewrite F in R end; [discriminate R|].
  cbn [omap app] in R. rewrite str_eqb_refl in R.
  match type of R with stmts None (TId ?m :: TLBrack :: TId ?f :: TEq :: TId ?fo :: TId ?s :: TEq :: TId ?bo :: TRBrack :: ?T) = _ =>
    change (omap (cons (SNode (lit "node") [(lit "fontname", font); (lit "shape", lit "box")])) (stmts None T) = Some st) in R end.
  assert (PN : parses (flat_map (fun p => node_tokens demangle (fst p) (snd p)) (enum_from 0 a)) (flat_map (fun p => [node_stmt demangle (fst p) (snd p)]) (enum_from 0 a))) by (apply parses_flat; intros; apply node_parses).
  rewrite PN in R.
  match type of R with context [stmts None (TId ?j :: TLBrack :: TId ?la :: TEq :: TStr raw :: ts)] => change (stmts None (TId j :: TLBrack :: TId la :: TEq :: TStr raw :: ts)) with (stmts (Some (j, [(la, raw)])) ts) in R; destruct (stmts (Some (j, [(la, raw)])) ts) as [st1|] eqn:Q end; [|discriminate R].
  destruct (stmts_open (length ts) ts (Nat.le_refl _) _ _ _ Q) as [more [st2 ->]]. cbn [omap app] in R. injection R as <-.
  rewrite E in N. cbn [file_nodes] in N. change (str_eqb (lit "fontname") (lit "label")) with false in N. cbv iota in N. rewrite file_nodes_app in N.
  assert (P : file_nodes (flat_map (fun p => [node_stmt demangle (fst p) (snd p)]) (enum_from 0 a)) =
    map (fun p => (Some (N.of_nat (fst p)), Some (demangle (nname (snd p)), nmax (snd p), nlocal (snd p)), ndashed (snd p))) (enum_from 0 a)).
  { assert (Hall : forall p, In p (enum_from 0 a) -> no_backslash (demangle (nname (snd p)))) by (intros p Hp; apply Ha, (enum_In _ 0), Hp).
    revert Hall. generalize (enum_from 0 a). intros l Hall. induction l as [|p l IH]; [reflexivity|].
    cbn [flat_map app map]. unfold node_stmt at 1. cbn [file_nodes]. rewrite str_eqb_refl. rewrite IH by (intros y Hy; apply Hall; right; exact Hy). f_equal.
    rewrite read_raw_label by (apply Hall; left; reflexivity). unfold show_nat. rewrite as_num_show. destruct (ndashed (snd p)); reflexivity. }
  rewrite P in N. unfold node_count in N. rewrite E, <- enum_combine, enum_app, map_app in N. apply app_inv_head in N. cbn [app file_nodes enum_from map fst snd] in N.
  rewrite str_eqb_refl in N. injection N as _ N _ _. exact (Hx (K N)).
Qed.
