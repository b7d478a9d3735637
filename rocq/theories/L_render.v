(** Proofs about the output. *)
From Coq Require Import Permutation Sorted.
From Coq Require DecimalPos DecimalN DecimalFacts.
From Verif Require Import M_base M_stack M_graph M_analysis M_render S_graph S_render L_base L_analysis L_maxprops.

(** ** Decimal numbers *)
Lemma digits_fold d acc :
  fold_left (fun a c => (a * 10 + digit_val c)%N) (uint_str d) (Npos acc) = Npos (Pos.of_uint_acc d acc).
Proof.
  revert acc; induction d; intros acc; cbn [uint_str fold_left Pos.of_uint_acc]; [reflexivity|..];
    rewrite <- IHd; f_equal; change (digit_val _) with 0%N || change (digit_val _) with 1%N ||
    change (digit_val _) with 2%N || change (digit_val _) with 3%N || change (digit_val _) with 4%N ||
    change (digit_val _) with 5%N || change (digit_val _) with 6%N || change (digit_val _) with 7%N ||
    change (digit_val _) with 8%N || change (digit_val _) with 9%N; lia.
Qed.

Lemma digits_uint d : digits_val (uint_str d) = N.of_uint d.
Proof.
  unfold digits_val, N.of_uint. induction d; cbn [uint_str fold_left Pos.of_uint]; [reflexivity | exact IHd |..];
    match goal with |- fold_left _ _ ?x = N.pos (Pos.of_uint_acc _ ?y) => change x with (Npos y) end; apply digits_fold.
Qed.

Lemma show_N_val n : digits_val (show_N n) = n.
Proof. unfold show_N. rewrite digits_uint. apply DecimalN.Unsigned.of_to. Qed.

Lemma uint_digits d : forallb is_digit (uint_str d) = true.
Proof. induction d; simpl; auto. Qed.

Lemma show_N_digits n : forallb is_digit (show_N n) = true.
Proof. apply uint_digits. Qed.

Lemma show_N_nonempty n : show_N n <> [].
Proof.
  intros H. destruct n as [|p].
  - discriminate.
  - unfold show_N, N.to_uint in H. pose proof (DecimalPos.Unsigned.to_uint_nonnil p) as Hn.
    destruct (Pos.to_uint p); [congruence | discriminate..].
Qed.

Lemma as_num_show n : as_num (show_N n) = Some n.
Proof.
  unfold as_num. pose proof (show_N_nonempty n). rewrite show_N_digits, show_N_val. destruct (show_N n); [congruence | reflexivity].
Qed.

Lemma show_N_inj a b : show_N a = show_N b -> a = b.
Proof. intros H. rewrite <- (show_N_val a), <- (show_N_val b), H. reflexivity. Qed.

Lemma digit_id c : is_digit c = true -> id_char c = true.
Proof. intros H. unfold id_char, is_alnum. rewrite H. rewrite orb_true_r. reflexivity. Qed.

Lemma digit_plain c : is_digit c = true -> Ascii.eqb c dquote = false /\ Ascii.eqb c backslash = false.
Proof.
  intros H. split; apply Ascii.eqb_neq; intros ->; discriminate.
Qed.

(** ** Lexing *)
Lemma lex_id w s acc : forallb id_char w = true -> lex (LPlain acc) (w ++ s) = lex (LPlain (acc ++ w)) s.
Proof.
  revert acc; induction w as [|c w IH]; intros acc H; simpl; [rewrite app_nil_r; reflexivity|].
  simpl in H. apply andb_true_iff in H as [Hc Hw]. rewrite Hc, IH by exact Hw. rewrite <- app_assoc. reflexivity.
Qed.

Lemma digits_ids w : forallb is_digit w = true -> forallb id_char w = true.
Proof. rewrite !forallb_forall. intros H c Hc. apply digit_id, H, Hc. Qed.

Lemma lex_num n s acc : lex (LPlain acc) (show_N n ++ s) = lex (LPlain (acc ++ show_N n)) s.
Proof. apply lex_id, digits_ids, show_N_digits. Qed.

Lemma lex_str_plain w s acc :
  (forall c, In c w -> Ascii.eqb c dquote = false /\ Ascii.eqb c backslash = false) ->
  lex (LStr acc) (w ++ s) = lex (LStr (acc ++ w)) s.
Proof.
  revert acc; induction w as [|c w IH]; intros acc H; simpl; [rewrite app_nil_r; reflexivity|].
  destruct (H c (or_introl eq_refl)) as [-> ->]. rewrite IH by (intros x Hx; apply H; right; exact Hx).
  rewrite <- app_assoc. reflexivity.
Qed.

Lemma lex_str_num n s acc : lex (LStr acc) (show_N n ++ s) = lex (LStr (acc ++ show_N n)) s.
Proof.
  apply lex_str_plain. intros c Hc. apply digit_plain.
  pose proof (show_N_digits n) as H. rewrite forallb_forall in H. auto.
Qed.

Lemma lex_str_escape w s acc :
  no_backslash w -> lex (LStr acc) (escape w ++ s) = lex (LStr (acc ++ w)) s.
Proof.
  unfold no_backslash. revert acc; induction w as [|c w IH]; intros acc H; simpl; [rewrite app_nil_r; reflexivity|].
  assert (Hw : ~ In backslash w) by (intros Hc; apply H; right; exact Hc).
  assert (Hc : Ascii.eqb c backslash = false) by (apply Ascii.eqb_neq; intros ->; apply H; left; reflexivity).
  destruct (Ascii.eqb c dquote) eqn:E.
  - apply Ascii.eqb_eq in E; subst c. cbn. rewrite IH by exact Hw. rewrite <- app_assoc. reflexivity.
  - cbn [app lex]. rewrite E, Hc, IH by exact Hw. rewrite <- app_assoc. reflexivity.
Qed.

Lemma lex_str_esc_n s acc : lex (LStr acc) (esc_n ++ s) = lex (LStr (acc ++ esc_n)) s.
Proof. reflexivity. Qed.

(** Text that lexes to the tokens [T] and leaves the lexer outside of any token. *)
Definition lexes (X : str) (T : list token) : Prop :=
  forall s, lex (LPlain []) (X ++ s) = omap (app T) (lex (LPlain []) s).

Lemma omap_app {A} (a b : list A) o : omap (app a) (omap (app b) o) = omap (app (a ++ b)) o.
Proof. destruct o; simpl; [rewrite app_assoc|]; reflexivity. Qed.

Lemma lexes_nil : lexes [] [].
Proof. intros s. simpl. destruct (lex (LPlain []) s); reflexivity. Qed.

Lemma lexes_app X Y T U : lexes X T -> lexes Y U -> lexes (X ++ Y) (T ++ U).
Proof. intros HX HY s. rewrite <- app_assoc, HX, HY, omap_app. reflexivity. Qed.

Lemma lexes_flat {A} (f : A -> str) (t : A -> list token) l :
  (forall x, In x l -> lexes (f x) (t x)) -> lexes (flat_map f l) (flat_map t l).
Proof.
  induction l as [|x l IH]; intros H; simpl; [apply lexes_nil|].
  apply lexes_app; [apply H; left; reflexivity | apply IH; intros y Hy; apply H; right; exact Hy].
Qed.

Definition raw_label (demangle : str -> str) (nd : node) : str :=
  demangle (nname nd) ++
  match nmax nd with Some m => esc_n ++ lit "max " ++ show_max m | None => [] end ++
  esc_n ++ lit "local = " ++ show_local (nlocal nd).

Definition node_tokens (demangle : str -> str) (i : nat) (nd : node) : list token :=
  [TId (show_nat i); TLBrack; TId (lit "label"); TEq; TStr (raw_label demangle nd)] ++
  (if ndashed nd then [TId (lit "style"); TEq; TId (lit "dashed")] else []) ++ [TRBrack].

Lemma flush_num n : flush (show_N n) = [TId (show_N n)].
Proof. pose proof (show_N_nonempty n). destruct (show_N n); [congruence | reflexivity]. Qed.

Lemma lex_close acc (d : bool) s :
  lex (LStr acc) (q ++ (if d then lit " style=dashed" else []) ++ lit "]" ++ nl ++ s) =
  omap (app ([TStr acc] ++ (if d then [TId (lit "style"); TEq; TId (lit "dashed")] else []) ++ [TRBrack])) (lex (LPlain []) s).
Proof.
  destruct d; cbn; destruct (lex (LPlain []) s); reflexivity.
Qed.

Lemma lex_str_local l s acc :
  lex (LStr acc) (show_local l ++ s) = lex (LStr (acc ++ show_local l)) s.
Proof. destruct l as [n|]; cbn [show_local]; [apply lex_str_num | reflexivity]. Qed.

Lemma lex_str_max m s acc :
  lex (LStr acc) (show_max m ++ s) = lex (LStr (acc ++ show_max m)) s.
Proof.
  destruct m as [n|n]; cbn [show_max]; rewrite <- app_assoc;
    (rewrite lex_str_plain; [rewrite lex_str_num, <- app_assoc; reflexivity|]);
    intros c Hc; simpl in Hc; repeat (destruct Hc as [<-|Hc]; [split; reflexivity|]); destruct Hc.
Qed.

Lemma lex_str_lit_local s acc : lex (LStr acc) (lit "local = " ++ s) = lex (LStr (acc ++ lit "local = ")) s.
Proof. apply lex_str_plain. intros c Hc; simpl in Hc; repeat (destruct Hc as [<-|Hc]; [split; reflexivity|]); destruct Hc. Qed.
Lemma lex_str_lit_max s acc : lex (LStr acc) (lit "max " ++ s) = lex (LStr (acc ++ lit "max ")) s.
Proof. apply lex_str_plain. intros c Hc; simpl in Hc; repeat (destruct Hc as [<-|Hc]; [split; reflexivity|]); destruct Hc. Qed.

Lemma lex_open n s : lex (LPlain []) (lit "    " ++ show_N n ++ lit " [label=" ++ q ++ s) =
  omap (app [TId (show_N n); TLBrack; TId (lit "label"); TEq]) (lex (LStr []) s).
Proof.
  cbn [lit list_ascii_of_string app]. cbn [lex]. cbn [id_char white punct].
  change (lex (LPlain []) (lit "    " ++ show_N n ++ lit " [label=" ++ q ++ s) = omap (app [TId (show_N n); TLBrack; TId (lit "label"); TEq]) (lex (LStr []) s)).
  assert (H : forall x, lex (LPlain []) (lit "    " ++ x) = lex (LPlain []) x).
  { intros x. cbn. destruct (lex (LPlain []) x); reflexivity. }
  rewrite H, lex_num. cbn [app]. cbn. rewrite flush_num. destruct (lex (LStr []) s); reflexivity.
Qed.

Lemma dot_node_lexes demangle i nd :
  no_backslash (demangle (nname nd)) -> lexes (dot_node demangle i nd) (node_tokens demangle i nd).
Proof.
  intros Hb s. unfold dot_node, show_nat. rewrite <- !app_assoc.
  rewrite lex_open, lex_str_escape by exact Hb. rewrite app_nil_l.
  assert (Hm : forall x acc, lex (LStr acc) (match nmax nd with Some m => esc_n ++ lit "max " ++ show_max m | None => [] end ++ x)
     = lex (LStr (acc ++ match nmax nd with Some m => esc_n ++ lit "max " ++ show_max m | None => [] end)) x).
  { intros x acc. destruct (nmax nd) as [m|]; [|rewrite app_nil_r; reflexivity].
    rewrite <- !app_assoc, lex_str_esc_n, lex_str_lit_max, lex_str_max, <- !app_assoc. reflexivity. }
  rewrite Hm, lex_str_esc_n, lex_str_lit_local, lex_str_local, lex_close.
  rewrite omap_app. f_equal. unfold node_tokens, raw_label, show_nat. rewrite <- !app_assoc. reflexivity.
Qed.

Lemma dot_edge_lexes e : lexes (dot_edge e) [TId (show_nat (fst e)); TArrow; TId (show_nat (snd e))].
Proof.
  intros s. unfold dot_edge, show_nat. rewrite <- !app_assoc.
  assert (H : forall x, lex (LPlain []) (lit "    " ++ x) = lex (LPlain []) x).
  { intros x. cbn. destruct (lex (LPlain []) x); reflexivity. }
  assert (H2 : forall a x, lex (LPlain a) (lit " -> " ++ x) = omap (app (flush a ++ [TArrow])) (lex (LPlain []) x)).
  { intros a x. cbn. destruct (lex (LPlain []) x); simpl; rewrite ?app_nil_r, <- ?app_assoc; reflexivity. }
  assert (H3 : forall a x, lex (LPlain a) (nl ++ x) = omap (app (flush a)) (lex (LPlain []) x)) by reflexivity.
  rewrite H, lex_num, app_nil_l, H2, lex_num, H3, app_nil_l. rewrite !flush_num, omap_app. reflexivity.
Qed.

Definition cluster_tokens (i : nat) (cycle : list nat) : list token :=
  [TId (lit "subgraph"); TId (lit "cluster_" ++ show_nat i); TLBrace;
   TId (lit "style"); TEq; TId (lit "dashed"); TId (lit "fontname"); TEq; TId font;
   TId (lit "label"); TEq; TStr (lit "SCC" ++ show_nat i)] ++
  map (fun v => TId (show_nat v)) cycle ++ [TRBrace].

Lemma dot_cluster_lexes i cycle : lexes (dot_cluster i cycle) (cluster_tokens i cycle).
Proof.
  unfold dot_cluster, cluster_tokens.
  assert (H3 : forall a x, lex (LPlain a) (nl ++ x) = omap (app (flush a)) (lex (LPlain []) x)) by reflexivity.
  set (X1 := nl ++ lit "    subgraph cluster_" ++ show_nat i ++ lit " {" ++ nl).
  set (X2 := lit "        style=dashed" ++ nl ++ lit "        fontname=" ++ font ++ nl).
  set (X3 := lit "        label=" ++ q ++ lit "SCC" ++ show_nat i ++ q ++ nl).
  set (X4 := flat_map (fun v => lit "        " ++ show_nat v ++ nl) cycle).
  set (X5 := lit "    }" ++ nl).
  replace (nl ++ lit "    subgraph cluster_" ++ show_nat i ++ lit " {" ++ nl ++
    lit "        style=dashed" ++ nl ++ lit "        fontname=" ++ font ++ nl ++
    lit "        label=" ++ q ++ lit "SCC" ++ show_nat i ++ q ++ nl ++ X4 ++ X5)
    with (X1 ++ X2 ++ X3 ++ X4 ++ X5) by (unfold X1, X2, X3, X5; rewrite <- !app_assoc; reflexivity).
  assert (L1 : lexes X1 [TId (lit "subgraph"); TId (lit "cluster_" ++ show_nat i); TLBrace]).
  { intros s. unfold X1, show_nat. rewrite <- !app_assoc.
    assert (H : forall x, lex (LPlain []) (nl ++ lit "    subgraph cluster_" ++ x) = omap (app [TId (lit "subgraph")]) (lex (LPlain (lit "cluster_")) x)).
    { intros x. cbn. destruct (lex _ x); reflexivity. }
    assert (H2 : forall a x, a <> [] -> lex (LPlain a) (lit " {" ++ nl ++ x) = omap (app [TId a; TLBrace]) (lex (LPlain []) x)).
    { intros a x Ha. destruct a; [congruence|]. cbn. destruct (lex _ x); reflexivity. }
    rewrite H, lex_num, H2 by (intros E; apply app_eq_nil in E as [E _]; discriminate). rewrite omap_app. reflexivity. }
  assert (L2 : lexes X2 [TId (lit "style"); TEq; TId (lit "dashed"); TId (lit "fontname"); TEq; TId font]).
  { intros s. unfold X2. cbn. destruct (lex (LPlain []) s); reflexivity. }
  assert (L3 : lexes X3 [TId (lit "label"); TEq; TStr (lit "SCC" ++ show_nat i)]).
  { intros s. unfold X3, show_nat. rewrite <- !app_assoc.
    assert (H : forall x, lex (LPlain []) (lit "        label=" ++ q ++ lit "SCC" ++ x) = omap (app [TId (lit "label"); TEq]) (lex (LStr (lit "SCC")) x)).
    { intros x. cbn. destruct (lex _ x); reflexivity. }
    assert (H2 : forall a x, lex (LStr a) (q ++ nl ++ x) = omap (app [TStr a]) (lex (LPlain []) x)).
    { intros a x. cbn. destruct (lex _ x); reflexivity. }
    rewrite H, lex_str_num, H2, omap_app. reflexivity. }
  assert (L4 : lexes X4 (map (fun v => TId (show_nat v)) cycle)).
  { unfold X4. replace (map (fun v => TId (show_nat v)) cycle) with (flat_map (fun v => [TId (show_nat v)]) cycle).
    2:{ induction cycle; simpl; [reflexivity | f_equal; assumption]. }
    apply lexes_flat. intros v _ s. unfold show_nat. rewrite <- !app_assoc.
    assert (H : forall x, lex (LPlain []) (lit "        " ++ x) = lex (LPlain []) x).
    { intros x. cbn. destruct (lex (LPlain []) x); reflexivity. }
    rewrite H, lex_num, H3, app_nil_l. rewrite flush_num. reflexivity. }
  assert (L5 : lexes X5 [TRBrace]).
  { intros s. unfold X5. cbn. destruct (lex (LPlain []) s); reflexivity. }
  clearbody X1 X2 X3 X4 X5.
  exact (lexes_app _ _ _ _ L1 (lexes_app _ _ _ _ L2 (lexes_app _ _ _ _ L3 (lexes_app _ _ _ _ L4 L5)))).
Qed.

(** ** Statements *)
Definition parses (T : list token) (S : list stmt) : Prop :=
  forall ts, stmts None (T ++ ts) = omap (app S) (stmts None ts).

Lemma parses_nil : parses [] [].
Proof. intros ts. simpl app. destruct (stmts None ts); reflexivity. Qed.
Lemma parses_app T1 T2 S1 S2 : parses T1 S1 -> parses T2 S2 -> parses (T1 ++ T2) (S1 ++ S2).
Proof. intros H1 H2 ts. rewrite <- app_assoc, H1, H2, omap_app. reflexivity. Qed.
Lemma parses_flat {A} (t : A -> list token) (f : A -> list stmt) l :
  (forall x, In x l -> parses (t x) (f x)) -> parses (flat_map t l) (flat_map f l).
Proof.
  induction l as [|x l IH]; intros H; simpl; [apply parses_nil|].
  apply parses_app; [apply H; left; reflexivity | apply IH; intros y Hy; apply H; right; exact Hy].
Qed.

Definition node_stmt (demangle : str -> str) (i : nat) (nd : node) : stmt :=
  SNode (show_nat i) ((lit "label", raw_label demangle nd) :: (if ndashed nd then [(lit "style", lit "dashed")] else [])).

Lemma node_parses demangle i nd : parses (node_tokens demangle i nd) [node_stmt demangle i nd].
Proof. intros ts. unfold node_tokens, node_stmt. destruct (ndashed nd); reflexivity. Qed.

Lemma edge_parses a b : parses [TId a; TArrow; TId b] [SEdge a b].
Proof. intros ts. reflexivity. Qed.

Lemma refs_parses l : parses (map TId l ++ [TRBrace]) (map SRef l ++ [SClose]).
Proof.
  induction l as [|a l IH].
  - intros ts. reflexivity.
  - intros ts. specialize (IH ts). cbn [map app].
    assert (H : stmts None (TId a :: (map TId l ++ [TRBrace]) ++ ts) = omap (cons (SRef a)) (stmts None ((map TId l ++ [TRBrace]) ++ ts))).
    { destruct l as [|b [|c l]]; reflexivity. }
    rewrite H, IH. destruct (stmts None ts); reflexivity.
Qed.

Definition cluster_stmts (i : nat) (cycle : list nat) : list stmt :=
  [SOpen (lit "cluster_" ++ show_nat i); SAttr (lit "style") (lit "dashed"); SAttr (lit "fontname") font;
   SAttr (lit "label") (lit "SCC" ++ show_nat i)] ++ map SRef (map show_nat cycle) ++ [SClose].

Lemma cluster_parses i cycle : parses (cluster_tokens i cycle) (cluster_stmts i cycle).
Proof.
  unfold cluster_tokens, cluster_stmts.
  rewrite <- (map_map show_nat TId). apply parses_app; [|apply refs_parses].
  intros ts. cbn. destruct (stmts None ts); reflexivity.
Qed.

(** ** The whole file *)
Definition file_stmts (demangle : str -> str) (g : graph node) (cycles : list (list nat)) : list stmt :=
  [SNode (lit "node") [(lit "fontname", font); (lit "shape", lit "box")]] ++
  flat_map (fun p => [node_stmt demangle (fst p) (snd p)]) (enum_from 0 (gnodes g)) ++
  flat_map (fun e => [SEdge (show_nat (fst e)) (show_nat (snd e))]) (gedges g) ++
  flat_map (fun p => cluster_stmts (fst p) (snd p)) (enum_from 0 cycles) ++ [SClose].

Lemma enum_In {A} (l : list A) i p : In p (enum_from i l) -> In (snd p) l.
Proof. revert i; induction l as [|x l IH]; intros i; simpl; [auto|]. intros [<-|H]; [left; reflexivity | right; eauto]. Qed.

Lemma read_dot_spec demangle g cycles :
  (forall nd, In nd (gnodes g) -> no_backslash (demangle (nname nd))) ->
  read_dot (dot demangle g cycles) = Some (file_stmts demangle g cycles).
Proof.
  intros Hb. unfold read_dot, dot.
  set (N1 := flat_map (fun p => dot_node demangle (fst p) (snd p)) (enum_from 0 (gnodes g))).
  set (E1 := flat_map dot_edge (gedges g)).
  set (C1 := flat_map (fun p => dot_cluster (fst p) (snd p)) (enum_from 0 cycles)).
  set (NT := flat_map (fun p => node_tokens demangle (fst p) (snd p)) (enum_from 0 (gnodes g))).
  set (ET := flat_map (fun e : nat * nat => [TId (show_nat (fst e)); TArrow; TId (show_nat (snd e))]) (gedges g)).
  set (CT := flat_map (fun p => cluster_tokens (fst p) (snd p)) (enum_from 0 cycles)).
  assert (H0 : forall x, lex (LPlain []) (lit "digraph {" ++ nl ++ lit "    node [fontname=" ++ font ++ lit " shape=box]" ++ nl ++ x) =
     omap (app [TId (lit "digraph"); TLBrace; TId (lit "node"); TLBrack; TId (lit "fontname"); TEq; TId font; TId (lit "shape"); TEq; TId (lit "box"); TRBrack]) (lex (LPlain []) x)).
  { intros x. cbn. destruct (lex (LPlain []) x); reflexivity. }
  rewrite H0.
  assert (HN : lexes N1 NT) by (apply lexes_flat; intros p Hp; apply dot_node_lexes, Hb, (enum_In _ 0), Hp).
  assert (HE : lexes E1 ET) by (apply lexes_flat; intros e _; apply dot_edge_lexes).
  assert (HC : lexes C1 CT) by (apply lexes_flat; intros p _; apply dot_cluster_lexes).
  rewrite HN, HE, HC. change (lex (LPlain []) (lit "}" ++ nl)) with (Some [TRBrace]).
  cbn [omap app]. rewrite str_eqb_refl.
  change (stmts None (TId (lit "node") :: TLBrack :: TId (lit "fontname") :: TEq :: TId font :: TId (lit "shape") :: TEq :: TId (lit "box") :: TRBrack :: NT ++ ET ++ CT ++ [TRBrace]))
    with (omap (cons (SNode (lit "node") [(lit "fontname", font); (lit "shape", lit "box")])) (stmts None (NT ++ ET ++ CT ++ [TRBrace]))).
  assert (PN : parses NT (flat_map (fun p => [node_stmt demangle (fst p) (snd p)]) (enum_from 0 (gnodes g)))) by (apply parses_flat; intros; apply node_parses).
  assert (PE : parses ET (flat_map (fun e => [SEdge (show_nat (fst e)) (show_nat (snd e))]) (gedges g))) by (apply parses_flat; intros; apply edge_parses).
  assert (PC : parses CT (flat_map (fun p => cluster_stmts (fst p) (snd p)) (enum_from 0 cycles))) by (apply parses_flat; intros; apply cluster_parses).
  rewrite PN, PE, PC. reflexivity.
Qed.

(** ** Labels *)
Lemma label_plain w s acc : no_backslash w -> label_lines acc false (w ++ s) = label_lines (acc ++ w) false s.
Proof.
  unfold no_backslash. revert acc; induction w as [|c w IH]; intros acc H; simpl; [rewrite app_nil_r; reflexivity|].
  destruct (Ascii.eqb_spec c backslash) as [->|Hc]; [exfalso; apply H; left; reflexivity|].
  rewrite IH by (intros Hx; apply H; right; exact Hx). rewrite <- app_assoc. reflexivity.
Qed.

Lemma label_break s acc : label_lines acc false (esc_n ++ s) = acc :: label_lines [] false s.
Proof. reflexivity. Qed.

Lemma num_no_backslash n : no_backslash (show_N n).
Proof.
  intros H. pose proof (show_N_digits n) as Hd. rewrite forallb_forall in Hd. apply Hd in H. discriminate.
Qed.

Lemma no_backslash_app a b : no_backslash a -> no_backslash b -> no_backslash (a ++ b).
Proof. unfold no_backslash. intros Ha Hb H. apply in_app_or in H as [H|H]; auto. Qed.

Lemma lit_no_backslash a : forallb (fun c => negb (Ascii.eqb c backslash)) a = true -> no_backslash a.
Proof. intros H Hin. rewrite forallb_forall in H. apply H in Hin. rewrite Ascii.eqb_refl in Hin. discriminate. Qed.

Lemma read_max_show m : read_max (lit "max " ++ show_max m) = Some m.
Proof.
  unfold read_max. destruct m as [n|n]; cbn [show_max].
  - change (lit "max " ++ lit "= " ++ show_N n) with (lit "max = " ++ show_N n).
    rewrite (proj2 (strip_prefix_app (lit "max = ") _ (show_N n)) eq_refl), as_num_show. reflexivity.
  - change (lit "max " ++ lit ">= " ++ show_N n) with (lit "max >= " ++ show_N n).
    change (strip_prefix (lit "max = ") (lit "max >= " ++ show_N n)) with (@None str).
    cbv iota. rewrite (proj2 (strip_prefix_app (lit "max >= ") _ (show_N n)) eq_refl), as_num_show. reflexivity.
Qed.

Lemma read_local_show l : read_local (lit "local = " ++ show_local l) = Some l.
Proof.
  unfold read_local. rewrite (proj2 (strip_prefix_app (lit "local = ") _ (show_local l)) eq_refl).
  destruct l as [n|]; cbn [show_local]; [|reflexivity].
  destruct (str_eqb_spec (show_N n) (lit "?")) as [E|_].
  - pose proof (show_N_digits n) as H. rewrite E in H. discriminate.
  - rewrite as_num_show. reflexivity.
Qed.

Lemma read_raw_label demangle nd :
  no_backslash (demangle (nname nd)) ->
  read_label (raw_label demangle nd) = Some (demangle (nname nd), nmax nd, nlocal nd).
Proof.
  intros Hb. unfold read_label, raw_label. rewrite label_plain by exact Hb. cbn [app].
  assert (Hl : no_backslash (lit "local = " ++ show_local (nlocal nd))).
  { apply no_backslash_app; [apply lit_no_backslash; reflexivity|].
    destruct (nlocal nd); [apply num_no_backslash | apply lit_no_backslash; reflexivity]. }
  assert (Hfin : forall w, no_backslash w -> label_lines [] false w = [w]).
  { intros w Hw. rewrite <- (app_nil_r w) at 1. rewrite label_plain by exact Hw. reflexivity. }
  destruct (nmax nd) as [m|].
  - rewrite <- !app_assoc, label_break.
    assert (Hm : no_backslash (lit "max " ++ show_max m)).
    { apply no_backslash_app; [apply lit_no_backslash; reflexivity|].
      destruct m; cbn [show_max]; (apply no_backslash_app; [apply lit_no_backslash; reflexivity | apply num_no_backslash]). }
    rewrite (app_assoc (lit "max ")), label_plain by exact Hm. cbn [app]. rewrite label_break, Hfin by exact Hl.
    rewrite read_max_show, read_local_show. reflexivity.
  - cbn [app]. rewrite label_break, Hfin by exact Hl. rewrite read_local_show. reflexivity.
Qed.

(** ** Reading back *)
Lemma file_nodes_app a b : file_nodes (a ++ b) = file_nodes a ++ file_nodes b.
Proof.
  induction a as [|x a IH]; [reflexivity|]. cbn [app file_nodes].
  destruct x as [id [|[k v] r]|? ?|? ?|?|?|]; try exact IH. destruct (str_eqb k (lit "label")); [simpl; f_equal|]; exact IH.
Qed.
Lemma file_edges_app a b : file_edges (a ++ b) = file_edges a ++ file_edges b.
Proof. induction a as [|x a IH]; [reflexivity|]. cbn [app file_edges]. destruct x; try exact IH. simpl; f_equal; exact IH. Qed.

Lemma cluster_stmts_nodes i c : file_nodes (cluster_stmts i c) = [].
Proof. unfold cluster_stmts. cbn [app file_nodes]. induction c as [|v c IH]; [reflexivity | exact IH]. Qed.
Lemma cluster_stmts_edges i c : file_edges (cluster_stmts i c) = [].
Proof. unfold cluster_stmts. cbn [app file_edges]. induction c as [|v c IH]; [reflexivity | exact IH]. Qed.

Lemma read_nodes demangle g cycles :
  (forall nd, In nd (gnodes g) -> no_backslash (demangle (nname nd))) ->
  file_nodes (file_stmts demangle g cycles) =
  map (fun p => (Some (N.of_nat (fst p)), Some (demangle (nname (snd p)), nmax (snd p), nlocal (snd p)), ndashed (snd p)))
      (enum_from 0 (gnodes g)).
Proof.
  intros Hb. unfold file_stmts. rewrite !file_nodes_app.
  replace (file_nodes (flat_map (fun e => [SEdge (show_nat (fst e)) (show_nat (snd e))]) (gedges g))) with
    (@nil (option N * option (str * option maxv * local) * bool)) by (induction (gedges g); [reflexivity | assumption]).
  replace (file_nodes (flat_map (fun p => cluster_stmts (fst p) (snd p)) (enum_from 0 cycles))) with
    (@nil (option N * option (str * option maxv * local) * bool)).
  2:{ induction (enum_from 0 cycles) as [|p l IH]; [reflexivity|]. cbn [flat_map]. rewrite file_nodes_app, cluster_stmts_nodes. exact IH. }
  cbn [file_nodes app]. change (str_eqb (lit "fontname") (lit "label")) with false. cbv iota. rewrite app_nil_r. cbn [app].
  assert (Hall : forall p, In p (enum_from 0 (gnodes g)) -> no_backslash (demangle (nname (snd p)))) by (intros p Hp; apply Hb, (enum_In _ 0), Hp).
  revert Hall. generalize (enum_from 0 (gnodes g)). intros l Hall. induction l as [|p l IH]; [reflexivity|].
  cbn [flat_map app map]. unfold node_stmt at 1. cbn [file_nodes]. rewrite str_eqb_refl.
  rewrite IH by (intros x Hx; apply Hall; right; exact Hx). f_equal.
  rewrite read_raw_label by (apply Hall; left; reflexivity). unfold show_nat. rewrite as_num_show.
  destruct (ndashed (snd p)); reflexivity.
Qed.

Lemma read_edges demangle g cycles :
  file_edges (file_stmts demangle g cycles) = map (fun e => (Some (N.of_nat (fst e)), Some (N.of_nat (snd e)))) (gedges g).
Proof.
  unfold file_stmts. rewrite !file_edges_app. cbn [file_edges app].
  replace (file_edges (flat_map (fun p => [node_stmt demangle (fst p) (snd p)]) (enum_from 0 (gnodes g)))) with
    (@nil (option N * option N)) by (induction (enum_from 0 (gnodes g)); [reflexivity | assumption]).
  replace (file_edges (flat_map (fun p => cluster_stmts (fst p) (snd p)) (enum_from 0 cycles))) with (@nil (option N * option N)).
  2:{ induction (enum_from 0 cycles) as [|p l IH]; [reflexivity|]. cbn [flat_map]. rewrite file_edges_app, cluster_stmts_edges. exact IH. }
  rewrite app_nil_r. cbn [app]. induction (gedges g) as [|e l IH]; [reflexivity|].
  cbn [flat_map app map file_edges]. unfold show_nat at 1 2. rewrite !as_num_show, IH. reflexivity.
Qed.

Lemma clusters_refs n acc l rest :
  file_clusters (Some (n, acc)) (map SRef l ++ SClose :: rest) = (n, acc ++ map as_num l) :: file_clusters None rest.
Proof.
  revert acc; induction l as [|a l IH]; intros acc; cbn [map app file_clusters omap fst snd].
  - rewrite app_nil_r. reflexivity.
  - rewrite IH, <- app_assoc. reflexivity.
Qed.

Lemma read_clusters demangle g cycles :
  file_clusters None (file_stmts demangle g cycles) =
  map (fun p => (lit "cluster_" ++ show_nat (fst p), map (fun v => Some (N.of_nat v)) (snd p))) (enum_from 0 cycles).
Proof.
  unfold file_stmts.
  assert (Hskip : forall l rest, (forall x, In x l -> (exists a b, x = SNode a b) \/ (exists a b, x = SEdge a b)) ->
    file_clusters None (l ++ rest) = file_clusters None rest).
  { induction l as [|x l IH]; intros rest H; [reflexivity|]. cbn [app].
    destruct (H x (or_introl eq_refl)) as [[a [b ->]]|[a [b ->]]]; cbn [file_clusters]; apply IH; intros y Hy; apply H; right; exact Hy. }
  rewrite Hskip. 2:{ intros x [<-|[]]. left; eauto. }
  rewrite Hskip. 2:{ intros x Hx. apply in_flat_map in Hx as [p [_ [<-|[]]]]. left. unfold node_stmt; eauto. }
  rewrite Hskip. 2:{ intros x Hx. apply in_flat_map in Hx as [p [_ [<-|[]]]]. right; eauto. }
  generalize (enum_from 0 cycles). intros l. induction l as [|p l IH]; [reflexivity|].
  cbn [flat_map map]. unfold cluster_stmts at 1. rewrite <- !app_assoc. cbn [app file_clusters]. rewrite clusters_refs, IH.
  f_equal. f_equal. cbn [app]. rewrite map_map. apply map_ext. intros v. unfold show_nat. apply as_num_show.
Qed.

(** ** A label on its own *)
Lemma node_line_reads demangle i nd rest :
  no_backslash (demangle (nname nd)) ->
  exists raw, lex (LPlain []) (dot_node demangle i nd ++ rest) =
    omap (app ([TId (show_nat i); TLBrack; TId (lit "label"); TEq; TStr raw] ++
         (if ndashed nd then [TId (lit "style"); TEq; TId (lit "dashed")] else []) ++ [TRBrack])) (lex (LPlain []) rest) /\
    read_label raw = Some (demangle (nname nd), nmax nd, nlocal nd).
Proof.
  intros Hb. exists (raw_label demangle nd). split; [apply (dot_node_lexes demangle i nd Hb)|]. apply read_raw_label; exact Hb.
Qed.

(** With a backslash: the string can end too early. *)
Lemma backslash_breaks_label :
  exists nd, lex (LPlain []) (dot_node (fun s => s) 0 nd) = None.
Proof. exists (mkNode [backslash; dquote] (LExact 8) (Some (MExact 8)) false). reflexivity. Qed.

Lemma backslash_changes_label :
  exists nd raw rest, lex (LPlain []) (dot_node (fun s => s) 0 nd) = Some ([TId (lit "0"); TLBrack; TId (lit "label"); TEq; TStr raw] ++ rest) /\
    read_label raw <> Some (nname nd, nmax nd, nlocal nd).
Proof.
  exists (mkNode (lit "a" ++ [backslash]) (LExact 8) (Some (MExact 8)) false). eexists. eexists. split; [reflexivity|].
  vm_compute. discriminate.
Qed.

(** ** top *)
Lemma insert_perm nd l : Permutation (nd :: l) (insert_node nd l).
Proof.
  induction l as [|x l IH]; simpl; [reflexivity|].
  destruct (N.leb _ _); [reflexivity|]. rewrite perm_swap. constructor. exact IH.
Qed.

Lemma sort_perm l : Permutation l (sort_nodes l).
Proof. induction l as [|x l IH]; simpl; [constructor|]. rewrite <- insert_perm. constructor. exact IH. Qed.

Definition decreasing (a b : node) : Prop := (top_usage b <= top_usage a)%N.

Lemma insert_sorted nd l : StronglySorted decreasing l -> StronglySorted decreasing (insert_node nd l).
Proof.
  induction l as [|x l IH]; intros Hs; simpl.
  - repeat constructor.
  - inversion Hs; subst. destruct (N.leb_spec (top_usage x) (top_usage nd)) as [Hle|Hgt].
    + constructor; [exact Hs|]. constructor; [exact Hle|].
      eapply Forall_impl; [|exact H2]. unfold decreasing. intros a Ha. lia.
    + constructor; [apply IH; exact H1|].
      eapply Permutation_Forall; [apply insert_perm|]. constructor; [unfold decreasing; lia | exact H2].
Qed.

Lemma sort_sorted l : StronglySorted decreasing (sort_nodes l).
Proof. induction l as [|x l IH]; simpl; [constructor | apply insert_sorted; exact IH]. Qed.

Lemma insert_stable k nd l : StronglySorted decreasing l ->
  filter (fun x => (top_usage x =? k)%N) (insert_node nd l) = filter (fun x => (top_usage x =? k)%N) (nd :: l).
Proof.
  induction l as [|x l IH]; intros Hs; cbn [insert_node]; [reflexivity|].
  inversion Hs; subst. destruct (N.leb_spec (top_usage x) (top_usage nd)) as [Hle|Hgt]; [reflexivity|].
  cbn [filter] in *. rewrite IH by exact H1.
  destruct (N.eqb_spec (top_usage x) k), (N.eqb_spec (top_usage nd) k); try reflexivity. lia.
Qed.

Lemma sort_stable k l :
  filter (fun x => (top_usage x =? k)%N) (sort_nodes l) = filter (fun x => (top_usage x =? k)%N) l.
Proof.
  induction l as [|x l IH]; [reflexivity|]. cbn [sort_nodes]. rewrite insert_stable by apply sort_sorted.
  cbn [filter]. rewrite IH. reflexivity.
Qed.

Lemma fold_max_num l : forall m, num (fold_left max2 l m) = fold_left N.max (map num l) (num m).
Proof. induction l as [|x l IH]; intros m; simpl; [reflexivity|]. rewrite IH. f_equal. destruct m, x; reflexivity. Qed.

Lemma fold_max_ge l : forall a, (a <= fold_left N.max l a)%N /\ forall x, In x l -> (x <= fold_left N.max l a)%N.
Proof.
  induction l as [|y l IH]; intros a; simpl; [split; [lia | intros x []]|].
  destruct (IH (N.max a y)) as [H1 H2]. split; [lia|]. intros x [<-|Hx]; [lia | auto].
Qed.
Lemma fold_max_in l : forall a, fold_left N.max l a = a \/ In (fold_left N.max l a) l.
Proof.
  induction l as [|y l IH]; intros a; simpl; [left; reflexivity|].
  destruct (IH (N.max a y)) as [H|H].
  - rewrite H. destruct (N.max_spec a y) as [[_ E]|[_ E]]; rewrite E; auto.
  - right; right; exact H.
Qed.

Definition shown_max (nd : node) : N := match nmax nd with Some m => num m | None => 0 end.

Lemma top_max_spec nds :
  match top_max nds with
  | Some n => (exists nd, In nd nds /\ shown_max nd = n) /\ forall nd, In nd nds -> (shown_max nd <= n)%N
  | None => nds = []
  end.
Proof.
  unfold top_max. destruct nds as [|nd nds]; [reflexivity|]. cbn [map max_of].
  set (f := fun nd => match nmax nd with Some m => m | None => MExact 0 end).
  assert (Hf : forall x, num (f x) = shown_max x) by (intros x; unfold f, shown_max; destruct (nmax x); reflexivity).
  change (match nmax nd with Some m => m | None => MExact 0 end) with (f nd).
  assert (Hn : num (fold_left max2 (map f nds) (f nd)) = fold_left N.max (map shown_max nds) (shown_max nd)).
  { rewrite fold_max_num, map_map, Hf. f_equal. apply map_ext. exact Hf. }
  assert (Hres : match fold_left max2 (map f nds) (f nd) with MExact n | MLower n => Some n end = Some (fold_left N.max (map shown_max nds) (shown_max nd))).
  { rewrite <- Hn. destruct (fold_left max2 (map f nds) (f nd)); reflexivity. }
  replace (match fold_left max2 (map f nds) (f nd) with MExact n | MLower n => Some n end) with (Some (fold_left N.max (map shown_max nds) (shown_max nd))).
  split.
  - destruct (fold_max_in (map shown_max nds) (shown_max nd)) as [E|E].
    + exists nd. split; [left; reflexivity | congruence].
    + apply in_map_iff in E as [x [E Hx]]. exists x. split; [right; exact Hx | exact E].
  - destruct (fold_max_ge (map shown_max nds) (shown_max nd)) as [H1 H2].
    intros x [<-|Hx]; [exact H1 | apply H2, in_map, Hx].
Qed.

(** ** Reading the `top` output *)
Lemma split_line w s acc : one_line w -> split_lines acc (w ++ nl ++ s) = (acc ++ w) :: split_lines [] s.
Proof.
  unfold one_line. revert acc; induction w as [|c w IH]; intros acc H; cbn [app split_lines].
  - cbn. rewrite app_nil_r. reflexivity.
  - destruct (Ascii.eqb_spec c "010") as [->|Hc]; [exfalso; apply H; left; reflexivity|].
    rewrite IH by (intros Hx; apply H; right; exact Hx). rewrite <- app_assoc. reflexivity.
Qed.

Lemma num_one_line n : one_line (show_N n).
Proof. intros H. pose proof (show_N_digits n) as Hd. rewrite forallb_forall in Hd. apply Hd in H. discriminate. Qed.

Lemma escape_In c s : In c (escape s) -> c = backslash \/ In c s.
Proof.
  induction s as [|x s IH]; cbn [escape]; [intros []|].
  destruct (Ascii.eqb x dquote).
  - intros [<-|[<-|H]]; [left; reflexivity | right; left; reflexivity|]. destruct (IH H); [left | right; right]; assumption.
  - intros [<-|H]; [right; left; reflexivity|]. destruct (IH H); [left | right; right]; assumption.
Qed.

Lemma escape_app a b : escape (a ++ b) = escape a ++ escape b.
Proof. induction a as [|c a IH]; [reflexivity|]. cbn [app escape]. rewrite IH. destruct (Ascii.eqb c dquote); reflexivity. Qed.

Lemma escape_one_line s : one_line s -> one_line (escape s).
Proof. intros H Hin. apply escape_In in Hin as [E|Hin]; [discriminate | exact (H Hin)]. Qed.

Lemma unquote_escape s : unquote (escape s) = s.
Proof.
  induction s as [|c s IH]; [reflexivity|]. cbn [escape].
  destruct (Ascii.eqb_spec c dquote) as [->|Hc].
  - assert (E : unquote (dquote :: escape s) = dquote :: s).
    { cbn [unquote]. change (Ascii.eqb dquote backslash) with false. cbn [andb]. rewrite IH.
      destruct (escape s) eqn:Ee; [|reflexivity]. rewrite <- IH. reflexivity. }
    cbn [unquote]. change (Ascii.eqb backslash backslash && Ascii.eqb dquote dquote) with true. cbv iota. exact E.
  - destruct (escape s) as [|d r] eqn:Ee.
    + simpl in IH. rewrite <- IH. reflexivity.
    + assert (Hd : d <> dquote).
      { intros ->. destruct s as [|x s]; [discriminate|]. cbn [escape] in Ee.
        destruct (Ascii.eqb_spec x dquote) as [->|Hx]; inversion Ee. congruence. }
      change (unquote (c :: d :: r)) with (if Ascii.eqb c backslash && Ascii.eqb d dquote then unquote (d :: r) else c :: unquote (d :: r)).
      rewrite (proj2 (Ascii.eqb_neq d dquote) Hd), andb_false_r, IH. reflexivity.
Qed.

Lemma first_word_num n s : first_word (show_N n ++ lit " " ++ s) = Some (show_N n, s).
Proof.
  pose proof (show_N_digits n) as Hd. revert Hd. generalize (show_N n). intros l. induction l as [|c l IH]; intros H; [reflexivity|].
  simpl in H. apply andb_true_iff in H as [Hc Hl]. cbn [app first_word].
  destruct (Ascii.eqb_spec c " ") as [->|_]; [discriminate|]. rewrite IH by exact Hl. reflexivity.
Qed.

Lemma read_row_line demangle nd : read_row (show_N (top_usage nd) ++ lit " " ++ escape (demangle (nname nd))) = Some (usage nd, demangle (nname nd)).
Proof.
  unfold read_row. rewrite first_word_num, as_num_show, unquote_escape. reflexivity.
Qed.

Lemma rows_read demangle l :
  (forall nd, In nd l -> one_line (demangle (nname nd))) ->
  all_some (map read_row (split_lines [] (flat_map (top_line demangle) l))) = Some (map (fun nd => (usage nd, demangle (nname nd))) l).
Proof.
  induction l as [|nd l IH]; intros H; [reflexivity|]. cbn [flat_map map]. unfold top_line at 1.
  rewrite escape_app. change (escape nl) with nl. rewrite <- !app_assoc.
  replace (show_N (top_usage nd) ++ lit " " ++ escape (demangle (nname nd)) ++ nl ++ flat_map (top_line demangle) l)
    with ((show_N (top_usage nd) ++ lit " " ++ escape (demangle (nname nd))) ++ nl ++ flat_map (top_line demangle) l)
    by (rewrite <- !app_assoc; reflexivity).
  rewrite split_line.
  2:{ intros Hin. apply in_app_or in Hin as [Hin|Hin]; [exact (num_one_line _ Hin)|].
      apply in_app_or in Hin as [Hin|Hin]; [simpl in Hin; destruct Hin as [E|[]]; discriminate|].
      exact (escape_one_line _ (H nd (or_introl eq_refl)) Hin). }
  cbn [map all_some]. rewrite app_nil_l, read_row_line. cbn [all_some].
  rewrite IH by (intros x Hx; apply H; right; exact Hx). reflexivity.
Qed.

Lemma read_top_spec demangle g :
  (forall nd, In nd (gnodes g) -> one_line (demangle (nname nd))) ->
  read_top (top demangle g) = Some (top_max (gnodes g), map (fun nd => (usage nd, demangle (nname nd))) (sort_nodes (gnodes g))).
Proof.
  intros H. unfold read_top, top.
  assert (H' : forall nd, In nd (sort_nodes (gnodes g)) -> one_line (demangle (nname nd))).
  { intros nd Hin. apply H. eapply Permutation_in; [symmetry; apply sort_perm | exact Hin]. }
  assert (Hh : one_line (lit "Usage Function")) by (intros Hin; simpl in Hin; repeat (destruct Hin as [E|Hin]; [discriminate|]); destruct Hin).
  destruct (top_max (gnodes g)) as [n|].
  - rewrite <- !app_assoc.
    replace (show_N n ++ lit " MAX" ++ nl ++ lit "Usage Function" ++ nl ++ flat_map (top_line demangle) (sort_nodes (gnodes g)))
      with ((show_N n ++ lit " MAX") ++ nl ++ lit "Usage Function" ++ nl ++ flat_map (top_line demangle) (sort_nodes (gnodes g)))
      by (rewrite <- !app_assoc; reflexivity).
    rewrite split_line.
    2:{ intros Hin. apply in_app_or in Hin as [Hin|Hin]; [exact (num_one_line _ Hin)|].
        simpl in Hin; repeat (destruct Hin as [E|Hin]; [discriminate|]); destruct Hin. }
    rewrite split_line by exact Hh. rewrite !app_nil_l.
    destruct (str_eqb_spec (show_N n ++ lit " MAX") (lit "Usage Function")) as [E|_].
    { exfalso. pose proof (show_N_digits n) as Hd. pose proof (show_N_nonempty n) as Hn.
      destruct (show_N n) as [|c r]; [congruence|]. cbn [app lit list_ascii_of_string] in E. inversion E; subst c. simpl in Hd. discriminate. }
    change (show_N n ++ lit " MAX") with (show_N n ++ lit " " ++ lit "MAX"). rewrite first_word_num.
    rewrite !str_eqb_refl. cbn [andb]. rewrite as_num_show, rows_read by exact H'. reflexivity.
  - cbn [app]. rewrite split_line by exact Hh. rewrite app_nil_l, str_eqb_refl, rows_read by exact H'. reflexivity.
Qed.

Lemma top_rows demangle g :
  (forall nd, In nd (gnodes g) -> one_line (demangle (nname nd))) ->
  exists mx l,
    read_top (top demangle g) = Some (mx, map (fun nd => (usage nd, demangle (nname nd))) l) /\
    Permutation (gnodes g) l /\
    StronglySorted (fun a b => (usage b <= usage a)%N) l /\
    forall k, filter (fun nd => (usage nd =? k)%N) l = filter (fun nd => (usage nd =? k)%N) (gnodes g).
Proof.
  intros H. exists (top_max (gnodes g)), (sort_nodes (gnodes g)). split; [apply read_top_spec; exact H|].
  split; [apply sort_perm|]. split; [exact (sort_sorted _) | intros k; exact (sort_stable k _)].
Qed.

Lemma top_max_line demangle g :
  (forall nd, In nd (gnodes g) -> one_line (demangle (nname nd))) ->
  exists mx rows, read_top (top demangle g) = Some (mx, rows) /\
    match mx with
    | Some n => (exists nd, In nd (gnodes g) /\ max_number nd = n) /\ forall nd, In nd (gnodes g) -> (max_number nd <= n)%N
    | None => gnodes g = []
    end.
Proof.
  intros H. eexists. eexists. split; [apply read_top_spec; exact H|]. exact (top_max_spec (gnodes g)).
Qed.

Lemma top_max_bounds demangle g g' cs w n rows :
  wf_graph g -> (forall v, v < node_count g -> below_2_64 g v) -> max_stack true g = Ret (g', cs) ->
  (forall nd, In nd (gnodes g') -> one_line (demangle (nname nd))) ->
  read_top (top demangle g') = Some (Some n, rows) ->
  (forall v m, reported g' v m -> exact m) -> true_usage g w ->
  forall v p, chain g v p -> (total w p <= n)%N.
Proof.
  intros Hwf Hsum Hrun Hol Hread Hex Hw v p Hp.
  rewrite read_top_spec in Hread by exact Hol. inversion Hread as [[Hmx Hrows]]. clear Hread Hrows.
  pose proof (top_max_spec (gnodes g')) as Hspec. rewrite Hmx in Hspec. destruct Hspec as [_ Hle].
  assert (Hv : v < node_count g) by (inversion Hp; subst; [assumption | apply (Hwf _ _ H)]).
  destruct (max_stack_correct g Hwf) as [ga [ca [Ha1 [_ Ha3]]]]. rewrite Ha1 in Hrun. inversion Hrun; subst ga ca.
  destruct (Ha3 v Hv) as [m [Hm _]]. pose proof (Hex _ _ Hm) as Hxm. destruct m as [k|k]; [|destruct Hxm].
  pose proof (exact_tight g g' cs v k w Hwf (Hsum v Hv) Ha1 Hm Hw) as [Hb _]. specialize (Hb p Hp).
  destruct Hm as [nd [Hnd Hmx2]]. apply nth_error_In in Hnd. specialize (Hle nd Hnd). unfold shown_max in Hle. rewrite Hmx2 in Hle. simpl in Hle. lia.
Qed.

Lemma top_drops_marker :
  exists g1 g2, top (fun s => s) g1 = top (fun s => s) g2 /\
    (exists m, reported g1 0 m /\ exact m) /\ (exists m, reported g2 0 m /\ ~ exact m).
Proof.
  exists (mkG [mkNode (lit "f") (LExact 8) (Some (MExact 8)) false] []),
         (mkG [mkNode (lit "f") (LExact 8) (Some (MLower 8)) false] []).
  split; [reflexivity|]. split; eexists; (split; [eexists; split; reflexivity|]); simpl; auto.
Qed.

Lemma dot_read_back demangle g cycles :
  (forall nd, In nd (gnodes g) -> no_backslash (demangle (nname nd))) ->
  exists st, read_dot (dot demangle g cycles) = Some st /\
    file_nodes st = map (fun p => (Some (N.of_nat (fst p)), Some (demangle (nname (snd p)), nmax (snd p), nlocal (snd p)), ndashed (snd p)))
                        (combine (seq 0 (node_count g)) (gnodes g)) /\
    file_edges st = map (fun e => (Some (N.of_nat (fst e)), Some (N.of_nat (snd e)))) (gedges g) /\
    map snd (file_clusters None st) = map (map (fun v => Some (N.of_nat v))) cycles.
Proof.
  intros H. exists (file_stmts demangle g cycles). split; [apply read_dot_spec; exact H|].
  assert (He : forall {A} (l : list A) i, enum_from i l = combine (seq i (length l)) l).
  { intros A l. induction l as [|x l IH]; intros i; simpl; [reflexivity | rewrite IH; reflexivity]. }
  split; [rewrite read_nodes by exact H; rewrite He; reflexivity|]. split; [apply read_edges|].
  rewrite read_clusters, map_map. cbn [snd]. rewrite <- (map_map snd (map (fun v => Some (N.of_nat v)))). f_equal.
  generalize 0. induction cycles as [|c l IH]; intros i; simpl; [reflexivity | rewrite IH; reflexivity].
Qed.

(** ** How the file is drawn *)
Lemma styles_refs c l rest : file_styles (Some c) (map SRef l ++ SClose :: rest) = c :: file_styles None rest.
Proof. induction l as [|a l IH]; cbn [map app file_styles]; [reflexivity | exact IH]. Qed.
Lemma read_styles demangle g cycles :
  file_styles None (file_stmts demangle g cycles) =
  map (fun p => (lit "cluster_" ++ show_nat (fst p), [(lit "style", lit "dashed"); (lit "fontname", font); (lit "label", lit "SCC" ++ show_nat (fst p))])) (enum_from 0 cycles).
Proof.
  unfold file_stmts.
  assert (Hskip : forall l rest, (forall x, In x l -> (exists a b, x = SNode a b) \/ (exists a b, x = SEdge a b)) ->
    file_styles None (l ++ rest) = file_styles None rest).
  { induction l as [|x l IH]; intros rest H; [reflexivity|]. cbn [app].
    destruct (H x (or_introl eq_refl)) as [[a [b ->]]|[a [b ->]]]; cbn [file_styles]; apply IH; intros y Hy; apply H; right; exact Hy. }
  rewrite Hskip. 2:{ intros x [<-|[]]. left; eauto. }
  rewrite Hskip. 2:{ intros x Hx. apply in_flat_map in Hx as [p [_ [<-|[]]]]. left. unfold node_stmt; eauto. }
  rewrite Hskip. 2:{ intros x Hx. apply in_flat_map in Hx as [p [_ [<-|[]]]]. right; eauto. }
  generalize (enum_from 0 cycles). intros l. induction l as [|p l IH]; [reflexivity|].
  cbn [flat_map map]. unfold cluster_stmts at 1. rewrite <- !app_assoc. cbn [app file_styles omap fst snd]. rewrite styles_refs, IH. reflexivity.
Qed.
Lemma read_defaults demangle g cycles : file_defaults (file_stmts demangle g cycles) = [(lit "fontname", font); (lit "shape", lit "box")].
Proof.
  unfold file_stmts. change ([SNode (lit "node") [(lit "fontname", font); (lit "shape", lit "box")]] ++ ?l) with (SNode (lit "node") [(lit "fontname", font); (lit "shape", lit "box")] :: l).
  cbn [file_defaults]. rewrite str_eqb_refl.
  assert (Hskip : forall l rest, (forall x, In x l -> (exists a b, x = SNode (show_nat a) b) \/ (forall a b, x <> SNode a b)) ->
    file_defaults (l ++ rest) = file_defaults rest).
  { induction l as [|x l IH]; intros rest H; [reflexivity|]. cbn [app].
    assert (R : file_defaults (l ++ rest) = file_defaults rest) by (apply IH; intros y Hy; apply H; right; exact Hy).
    destruct (H x (or_introl eq_refl)) as [[a [b ->]]|Hx].
    - cbn [file_defaults]. destruct (str_eqb (show_nat a) (lit "node")) eqn:E; [|exact R].
      exfalso. apply str_eqb_eq in E. pose proof (as_num_show (N.of_nat a)) as K. fold (show_nat a) in K. rewrite E in K. discriminate K.
    - destruct x; cbn [file_defaults]; try exact R. destruct (Hx _ _ eq_refl). }
  rewrite Hskip. 2:{ intros x Hx. apply in_flat_map in Hx as [p [_ [<-|[]]]]. left. unfold node_stmt; eauto. }
  rewrite Hskip. 2:{ intros x Hx. apply in_flat_map in Hx as [p [_ [<-|[]]]]. right; discriminate. }
  rewrite Hskip. 2:{ intros x Hx. right. apply in_flat_map in Hx as [p [_ Hx]]. unfold cluster_stmts in Hx. cbn [app In] in Hx.
    repeat (destruct Hx as [<-|Hx]; [discriminate|]). apply in_app_or in Hx as [Hx|[<-|[]]]; [|discriminate]. apply in_map_iff in Hx as [y [<- _]]. discriminate. }
  reflexivity.
Qed.
Lemma dot_drawn demangle g cycles :
  (forall nd, In nd (gnodes g) -> no_backslash (demangle (nname nd))) ->
  exists st, read_dot (dot demangle g cycles) = Some st /\
    file_defaults st = [(lit "fontname", lit "monospace"); (lit "shape", lit "box")] /\
    length (file_styles None st) = length cycles /\ NoDup (map fst (file_styles None st)) /\
    forall k c, nth_error (file_styles None st) k = Some c -> exists d, as_num d = Some (N.of_nat k) /\
      c = (lit "cluster_" ++ d, [(lit "style", lit "dashed"); (lit "fontname", lit "monospace"); (lit "label", lit "SCC" ++ d)]).
Proof.
  intros H. exists (file_stmts demangle g cycles). split; [apply read_dot_spec; exact H|]. split; [apply read_defaults|]. rewrite read_styles.
  assert (He : forall {A} (l : list A) i, map fst (enum_from i l) = seq i (length l)).
  { intros A l. induction l as [|x l IH]; intros i; simpl; [reflexivity | rewrite IH; reflexivity]. }
  assert (Le : length (enum_from 0 cycles) = length cycles) by (rewrite <- (map_length fst), He; apply seq_length).
  split; [rewrite map_length; exact Le|]. split.
  - rewrite map_map. cbn [fst]. rewrite <- (map_map fst (fun k => lit "cluster_" ++ show_nat k)), He.
    apply FinFun.Injective_map_NoDup; [|apply seq_NoDup]. intros a b E. apply app_inv_head in E.
    pose proof (as_num_show (N.of_nat a)) as Ka. pose proof (as_num_show (N.of_nat b)) as Kb. fold (show_nat a) in Ka. fold (show_nat b) in Kb. rewrite E, Kb in Ka. injection Ka as Ka. lia.
  - intros k c K. rewrite nth_error_map in K. destruct (nth_error (enum_from 0 cycles) k) as [x|] eqn:Ex; [|discriminate K]. cbn [option_map] in K. injection K as <-.
    exists (show_nat (fst x)). split; [|reflexivity]. unfold show_nat. rewrite as_num_show. f_equal. f_equal.
    assert (Kx : nth_error (map fst (enum_from 0 cycles)) k = Some (fst x)) by (rewrite nth_error_map, Ex; reflexivity). rewrite He in Kx.
    assert (Lk : k < length cycles) by (rewrite <- Le; apply nth_error_Some; congruence).
    rewrite (nth_error_nth' _ 0) in Kx by (rewrite seq_length; exact Lk). rewrite seq_nth in Kx by exact Lk. injection Kx as <-. reflexivity.
Qed.
