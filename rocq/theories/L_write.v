(** Lemmas on writing to stdout. *)
From Verif Require Import M_base M_stack M_graph M_render M_write M_wrapper M_driver S_driver.

Section Write.
Variable fault : faults.
Notation put := (write_all fault).

Lemma put_app a : forall b k, put (a ++ b) k = wbind (put a) (fun _ => put b) k.
Proof.
  induction a as [|c a IH]; intros b k; [reflexivity|]. cbn [app write_all]. unfold wbind. cbn [write_all]. destruct (fault (sk_tried k)); [reflexivity|]. rewrite IH. reflexivity.
Qed.
(** [says m s]: [m] writes [s]. *)
Definition says (m : wr unit) (s : str) : Prop := forall k, m k = put s k.
Lemma says_put s : says (put s) s. Proof. intros k. reflexivity. Qed.
Lemma says_ret : says (wret tt) []. Proof. intros k. reflexivity. Qed.
Lemma says_bind m f a b : says m a -> says f b -> says (wbind m (fun _ => f)) (a ++ b).
Proof. intros A B k. rewrite put_app. unfold wbind. rewrite A. destruct (put a k) as [k' [u| | |]]; try reflexivity. apply B. Qed.
Lemma says_each {A} (f : A -> wr unit) g l : (forall x, says (f x) (g x)) -> says (write_each f l) (flat_map g l).
Proof. intros H. induction l as [|x l IH]; cbn [write_each flat_map]; [apply says_ret|]. apply says_bind; [apply H | exact IH]. Qed.
Lemma put_result s : forall k, (exists k', put s k = (k', Ret tt)) \/ exists k' e, put s k = (k', Fail e).
Proof. induction s as [|c s IH]; intros k; cbn [write_all]; [left; now eexists|]. destruct (fault (sk_tried k)); [right; now eexists; eexists | apply IH]. Qed.
Definition esc1 (c : ascii) : str := if Ascii.eqb c dquote then [backslash; c] else [c].
Lemma says_char c : says (escaped_char fault c) (esc1 c).
Proof.
  unfold esc1, escaped_char. destruct (Ascii.eqb c dquote).
  - change [backslash; c] with ([backslash] ++ [c]). apply says_bind; apply says_put.
  - change [c] with ([] ++ [c]). apply says_bind; [apply says_ret | apply says_put].
Qed.
Lemma escape_cons c s : escape (c :: s) = esc1 c ++ escape s.
Proof. unfold esc1. cbn [escape]. destruct (Ascii.eqb c dquote); reflexivity. Qed.
Lemma says_escaped s : says (write_escaped fault s) (escape s).
Proof.
  induction s as [|c s IH]; intros k; [reflexivity|]. rewrite escape_cons, put_app. unfold write_escaped. cbn [escape_str]. unfold wbind. rewrite (says_char c k).
  destruct (put_result (esc1 c) k) as [[k' ->]|[k' [e ->]]]; [|reflexivity]. exact (IH k').
Qed.
Lemma app_pair {A} (a b c : list A) : (a ++ b) ++ c = a ++ b ++ c. Proof. symmetry. apply app_assoc. Qed.
Lemma says_node demangle i nd : says (write_node fault demangle (i, nd)) (dot_node demangle i nd).
Proof.
  unfold write_node, dot_node.
  replace (lit "    " ++ show_nat i ++ lit " [label=" ++ q ++ escape (demangle (nname nd)) ++
    match nmax nd with Some m => esc_n ++ lit "max " ++ show_max m | None => [] end ++
    esc_n ++ lit "local = " ++ show_local (nlocal nd) ++ q ++ (if ndashed nd then lit " style=dashed" else []) ++ lit "]" ++ nl)
  with ((lit "    " ++ show_nat i ++ lit " [label=" ++ q) ++ escape (demangle (nname nd)) ++
    match nmax nd with Some m => esc_n ++ lit "max " ++ show_max m | None => [] end ++
    (esc_n ++ lit "local = " ++ show_local (nlocal nd) ++ q) ++ (if ndashed nd then lit " style=dashed" else []) ++ lit "]" ++ nl) by (rewrite !app_pair; reflexivity).
  apply says_bind; [apply says_put|]. apply says_bind; [apply says_escaped|]. apply says_bind; [destruct (nmax nd); [apply says_put | apply says_ret]|].
  apply says_bind; [apply says_put|]. apply says_bind; [destruct (ndashed nd); [apply says_put | apply says_ret] | apply says_put].
Qed.
Lemma says_cluster i cycle : says (write_cluster fault (i, cycle)) (dot_cluster i cycle).
Proof.
  unfold write_cluster, dot_cluster.
  replace (nl ++ lit "    subgraph cluster_" ++ show_nat i ++ lit " {" ++ nl ++ lit "        style=dashed" ++ nl ++ lit "        fontname=" ++ font ++ nl ++
    lit "        label=" ++ q ++ lit "SCC" ++ show_nat i ++ q ++ nl ++ flat_map (fun v => lit "        " ++ show_nat v ++ nl) cycle ++ lit "    }" ++ nl)
  with ((nl ++ lit "    subgraph cluster_" ++ show_nat i ++ lit " {" ++ nl) ++ (lit "        style=dashed" ++ nl) ++ (lit "        fontname=" ++ font ++ nl) ++
    (lit "        label=" ++ q ++ lit "SCC" ++ show_nat i ++ q ++ nl) ++ flat_map (fun v => lit "        " ++ show_nat v ++ nl) cycle ++ lit "    }" ++ nl) by (rewrite !app_pair; reflexivity).
  apply says_bind; [apply says_put|]. apply says_bind; [apply says_put|]. apply says_bind; [apply says_put|]. apply says_bind; [apply says_put|].
  apply says_bind; [apply says_each; intros v; apply says_put | apply says_put].
Qed.
Lemma says_dot demangle g cycles : says (write_dot fault demangle g cycles) (dot demangle g cycles).
Proof.
  unfold write_dot, dot.
  replace (lit "digraph {" ++ nl ++ lit "    node [fontname=" ++ font ++ lit " shape=box]" ++ nl ++
    flat_map (fun p => dot_node demangle (fst p) (snd p)) (enum_from 0 (gnodes g)) ++ flat_map dot_edge (gedges g) ++
    flat_map (fun p => dot_cluster (fst p) (snd p)) (enum_from 0 cycles) ++ lit "}" ++ nl)
  with ((lit "digraph {" ++ nl) ++ (lit "    node [fontname=" ++ font ++ lit " shape=box]" ++ nl) ++
    flat_map (fun p => dot_node demangle (fst p) (snd p)) (enum_from 0 (gnodes g)) ++ flat_map dot_edge (gedges g) ++
    flat_map (fun p => dot_cluster (fst p) (snd p)) (enum_from 0 cycles) ++ lit "}" ++ nl) by (rewrite !app_pair; reflexivity).
  apply says_bind; [apply says_put|]. apply says_bind; [apply says_put|]. apply says_bind; [apply says_each; intros [i nd]; apply says_node|].
  apply says_bind; [apply says_each; intros e; apply says_put|]. apply says_bind; [apply says_each; intros [i c]; apply says_cluster | apply says_put].
Qed.
Lemma says_line demangle nd : says (write_line fault demangle nd) (top_line demangle nd).
Proof.
  unfold write_line, top_line. rewrite (app_assoc (show_N _)). apply says_bind; [apply says_put | apply says_escaped].
Qed.
Lemma says_top demangle g : says (write_top fault demangle g) (top demangle g).
Proof.
  unfold write_top, top. cbv zeta. apply says_bind; [destruct (top_max (gnodes g)); [apply says_put | apply says_ret]|]. rewrite app_assoc.
  apply says_bind; [apply says_put | apply says_each; intros nd; apply says_line].
Qed.

(** What is accepted. *)
Lemma put_received s : forall done, (forall k, k < length done -> fault k = None) -> exists out e,
  received (fun k => fault (length done + k)) s out e /\
  put s (mkSink (rev done) (length done)) = (mkSink (rev (done ++ out)) (length (done ++ out) + match e with Some _ => 1 | None => 0 end), match e with Some m => Fail m | None => Ret tt end).
Proof.
  induction s as [|c s IH]; intros done D; cbn [write_all sk_tried sk_rev].
  - exists [], None. split; [constructor; intros k L; inversion L|]. unfold wret. rewrite app_nil_r, Nat.add_0_r. reflexivity.
  - destruct (fault (length done)) as [e|] eqn:F.
    + exists [], (Some e). split; [apply rc_part with c s; [reflexivity | intros k L; inversion L | cbn [length]; rewrite Nat.add_0_r; exact F]|]. rewrite app_nil_r, Nat.add_1_r. reflexivity.
    + destruct (IH (done ++ [c])) as [out [e [R E]]].
      { intros k L. rewrite app_length in L. cbn [length] in L. destruct (Nat.eq_dec k (length done)) as [->|N]; [exact F | apply D; lia]. }
      rewrite rev_app_distr, app_length, Nat.add_1_r in E. cbn [rev app] in E. exists (c :: out), e. split.
      * rewrite app_length in R. cbn [length] in R. inversion R as [H|a d b m H1 H2 H3]; subst.
        -- constructor. intros [|k] L; [rewrite Nat.add_0_r; exact F|]. cbn [length] in L. specialize (H k ltac:(lia)). rewrite <- H. f_equal. lia.
        -- apply rc_part with d b; [reflexivity| |].
           ++ intros [|k] L; [rewrite Nat.add_0_r; exact F|]. cbn [length] in L. rewrite <- (H2 k ltac:(lia)). f_equal. lia.
           ++ cbn [length]. rewrite <- H3. f_equal. lia.
      * rewrite E, <- app_assoc. reflexivity.
Qed.
Lemma received_fun s o1 e1 o2 e2 : received fault s o1 e1 -> received fault s o2 e2 -> o1 = o2 /\ e1 = e2.
Proof.
  intros H1 H2. destruct H1 as [A|a c b e E F G], H2 as [A'|a' c' b' e' E' F' G'].
  - now split.
  - exfalso. rewrite A in G'; [discriminate|]. rewrite E', app_length. cbn [length]. lia.
  - exfalso. rewrite A' in G; [discriminate|]. rewrite E, app_length. cbn [length]. lia.
  - assert (L : length a = length a').
    { destruct (Nat.lt_trichotomy (length a) (length a')) as [L|[L|L]]; [rewrite F' in G by exact L; discriminate | exact L | rewrite F in G' by exact L; discriminate]. }
    rewrite E in E'. assert (a = a') as <-; [|split; [reflexivity | congruence]]. clear - E' L. revert a' L E'. induction a as [|x a IH]; intros [|y a'] L E; try discriminate L; [reflexivity|].
    injection E as <- E. f_equal. apply (IH a'); [now injection L | exact E].
Qed.
Lemma received_all s o : received fault s o None <-> o = s /\ forall k, k < length s -> fault k = None.
Proof. split; [intros H; inversion H; subst; now split | intros [-> H]; now constructor]. Qed.
Lemma received_any s : exists o e, received fault s o e.
Proof. destruct (put_received s [] ltac:(intros k L; inversion L)) as [o [e [R _]]]. exists o, e. exact R. Qed.
Lemma emit_says m s o e : says m s -> received fault s o e -> emit m = ([EOut o], match e with Some m => Fail m | None => Ret tt end).
Proof.
  intros S R. unfold emit. rewrite S. destruct (put_received s [] ltac:(intros k L; inversion L)) as [o' [e' [R' E]]]. cbn [length rev app] in E. rewrite E.
  destruct (received_fun s o e o' e' R R') as [-> ->]. cbn [sk_rev]. rewrite rev_involutive. reflexivity.
Qed.
End Write.
