(** The pass over the machine code. *)
From Verif Require Import M_base M_stack M_graph M_analysis M_filter M_names M_thumb M_ty M_parse M_build S_names S_build L_base L_names L_ir2 L_build1 L_build2 L_build3.

(** Adding edges from [caller] to the nodes in [V]. *)
Definition adds (caller : nat) (V : nat -> Prop) (x y : graph node * list (nat * nat)) : Prop :=
  gnodes (fst y) = gnodes (fst x) /\
  (forall e, In e (gedges (fst y)) <-> In e (gedges (fst x)) \/ exists v, V v /\ e = (caller, v)) /\
  (forall e, In e (snd y) <-> In e (snd x) \/ exists v, V v /\ e = (caller, v)) /\
  (NoDup (gedges (fst x)) -> (forall v, V v -> In (caller, v) (gedges (fst x)) -> In (caller, v) (snd x)) -> NoDup (gedges (fst y))).
Lemma adds_none caller (V : nat -> Prop) x : (forall v, ~ V v) -> adds caller V x x.
Proof.
  intros N. split; [reflexivity|]. split; [|split].
  - intros e. split; [tauto|]. intros [H | [v [H _]]]; [exact H | exfalso; exact (N v H)].
  - intros e. split; [tauto|]. intros [H | [v [H _]]]; [exact H | exfalso; exact (N v H)].
  - intros H _. exact H.
Qed.
Lemma adds_trans caller V1 V2 x y z : (forall e, In e (snd x) -> In e (gedges (fst x))) -> adds caller V1 x y -> adds caller V2 y z -> adds caller (fun v => V1 v \/ V2 v) x z.
Proof.
  intros S [A1 [B1 [C1 D1]]] [A2 [B2 [C2 D2]]]. split; [congruence|]. split; [|split].
  - intros e. rewrite B2, B1. split.
    + intros [[H | [v [H K]]] | [v [H K]]]; [left; exact H | right; exists v; tauto | right; exists v; tauto].
    + intros [H | [v [[H | H] K]]]; [left; left; exact H | left; right; exists v; tauto | right; exists v; tauto].
  - intros e. rewrite C2, C1. split.
    + intros [[H | [v [H K]]] | [v [H K]]]; [left; exact H | right; exists v; tauto | right; exists v; tauto].
    + intros [H | [v [[H | H] K]]]; [left; left; exact H | left; right; exists v; tauto | right; exists v; tauto].
  - intros H K. apply D2.
    + apply D1; [exact H|]. intros v Hv. exact (K v (or_introl Hv)).
    + intros v Hv I. apply C1. apply B1 in I. destruct I as [I | [w [I E]]]; [left; exact (K v (or_intror Hv) I) | right; exists w; split; assumption].
Qed.
Lemma adds_iff caller (V1 V2 : nat -> Prop) x y : (forall v, V1 v <-> V2 v) -> adds caller V1 x y -> adds caller V2 x y.
Proof.
  intros Q [A [B [C D]]]. split; [exact A|]. split; [|split].
  - intros e. rewrite B. split; (intros [H | [v [H K]]]; [left; exact H|]); right; exists v; (split; [apply Q; exact H | exact K]).
  - intros e. rewrite C. split; (intros [H | [v [H K]]]; [left; exact H|]); right; exists v; (split; [apply Q; exact H | exact K]).
  - intros H K. apply D; [exact H|]. intros v Hv. apply K. apply Q. exact Hv.
Qed.
Lemma adds_seen caller V x y : (forall e, In e (snd x) -> In e (gedges (fst x))) -> adds caller V x y -> forall e, In e (snd y) -> In e (gedges (fst y)).
Proof. intros S [_ [B [C _]]] e H. apply C in H. apply B. destruct H as [H | H]; [left; exact (S e H) | right; exact H]. Qed.
Lemma adds_once caller v x : (forall e, In e (snd x) -> In e (gedges (fst x))) -> adds caller (eq v) x (add_once caller v x).
Proof.
  intros S. destruct x as [g seen]. pose proof (add_once_spec caller v g seen S) as H. destruct (add_once caller v (g, seen)) as [g' seen'].
  destruct H as [A [B [C D]]]. unfold adds. cbn [fst snd]. split; [exact A|]. split; [|split].
  - intros e. rewrite B. split; (intros [H | H]; [left; exact H|]); right; [exists v; split; [reflexivity | exact H]|]. destruct H as [w [<- H]]. exact H.
  - intros e. rewrite C. split; (intros [H | H]; [left; exact H|]); right; [exists v; split; [reflexivity | exact H]|]. destruct H as [w [<- H]]. exact H.
  - intros H K. apply D; [exact H|]. apply K. reflexivity.
Qed.
Lemma adds_ofold {X} caller (f : graph node * list (nat * nat) -> X -> outcome (graph node * list (nat * nat))) (V : X -> nat -> Prop) l :
  (forall o x y, In o l -> (forall e, In e (snd x) -> In e (gedges (fst x))) -> f x o = Ret y -> adds caller (V o) x y) ->
  forall x y, (forall e, In e (snd x) -> In e (gedges (fst x))) -> ofold f l x = Ret y -> adds caller (fun v => exists o, In o l /\ V o v) x y.
Proof.
  induction l as [|o l IH]; intros F x y S E; cbn [ofold] in E.
  - injection E as <-. apply adds_none. intros v [o [[] _]].
  - destruct (bind_inv _ _ _ E) as [z [E1 E2]]. pose proof (F o x z (or_introl eq_refl) S E1) as A1.
    pose proof (adds_seen _ _ _ _ S A1) as S1. assert (A2 := IH (fun o' x' y' H => F o' x' y' (or_intror H)) z y S1 E2).
    apply (adds_iff caller (fun v => V o v \/ exists o', In o' l /\ V o' v)); [|exact (adds_trans _ _ _ _ _ _ S A1 A2)].
    intros v. cbn [In]. split.
    + intros [H | [o' [H K]]]; [exists o; split; [left; reflexivity | exact H] | exists o'; split; [right; exact H | exact K]].
    + intros [o' [[<- | H] K]]; [left; exact K | right; exists o'; split; assumption].
Qed.

(** The extent of a symbol and its bytes, as computed. *)
Lemma code_size_iff tags addr sym size : code_size tags addr sym = Ret size <-> extent tags addr sym size.
Proof.
  unfold code_size. cbv zeta. split.
  - destruct (N.eqb_spec (sy_size sym mod 2 ^ 32) 0) as [Z|Z]; [|intros E; injection E as <-; apply ex_sized; exact Z].
    intros E. destruct (bind_inv _ _ _ E) as [o [E1 E2]]. clear E. rewrite Z in E2.
    destruct o as [k|]; [|injection E2 as <-; apply (ex_empty _ _ _ None Z E1); discriminate].
    destruct (nth_error tags k) as [[start []]|] eqn:K1;
      try (injection E2 as <-; apply (ex_empty _ _ _ (Some k) Z E1); intros k' a b Q; injection Q as <-; rewrite K1; discriminate).
    destruct (nth_error tags (S k)) as [[tend []]|] eqn:K2; injection E2 as <-;
      first [ exact (ex_tags _ _ _ _ _ _ Z E1 K1 K2)
            | apply (ex_empty _ _ _ (Some k) Z E1); intros k' a b Q; injection Q as <-; rewrite K2; discriminate ].
  - intros [Z | k start tend Z F K1 K2 | o Z F N].
    + apply N.eqb_neq in Z. rewrite Z. reflexivity.
    + rewrite (proj2 (N.eqb_eq _ _) Z), F. cbn [bind]. rewrite K1, K2. reflexivity.
    + rewrite (proj2 (N.eqb_eq _ _) Z), F, Z. cbn [bind]. destruct o as [k|]; [|reflexivity].
      destruct (nth_error tags k) as [[start []]|] eqn:K1; try reflexivity.
      destruct (nth_error tags (S k)) as [[tend []]|] eqn:K2; try reflexivity.
      exfalso. exact (N k start tend eq_refl K1 K2).
Qed.
Lemma slice_iff text start len code : slice text start len = Ret code <-> bytes_at text start len code.
Proof.
  unfold slice, bytes_at. split.
  - destruct (N.leb_spec (start + len) (N.of_nat (length text))) as [L|L]; [|discriminate]. intros E. injection E as <-.
    exists (firstn (N.to_nat start) text), (skipn (N.to_nat len) (skipn (N.to_nat start) text)).
    split; [rewrite (firstn_skipn (N.to_nat len)); symmetry; apply firstn_skipn|].
    rewrite !firstn_length, skipn_length. lia.
  - intros [b [a [-> [<- <-]]]]. rewrite !app_length.
    rewrite (proj2 (N.leb_le _ _)) by lia. rewrite !Nat2N.id, skipn_app, skipn_all, Nat.sub_diag. cbn [skipn app].
    rewrite firstn_app, firstn_all, Nat.sub_diag. cbn [firstn]. rewrite app_nil_r. reflexivity.
Qed.

Section Machine.
Variables (demangle : str -> str) (p : prog) (nd0 : nodes) (evs : list event) (e : edgest) (ks0 : list key).
Hypothesis (W : wf_prog p) (R : RN demangle p (pg_defined p) nd0) (H0 : INV p nd0 evs e ks0).
Hypothesis (Hb : forall i st, In (i, st) evs <-> body p i st).
Hypothesis (Hd : forall c, In c (e_defined e) <-> exists n d i, In (n, d) (pg_defines p) /\ live p n i /\ chosen p i c).
Variables (stext : N) (text : str).
Hypothesis (Ht : is_thumb (pg_target p) = true) (Hx : pg_text p = Some (stext, text)).

Lemma idx c i : chosen p i c -> sget (e_indices e) c = Some i.
Proof.
  intros C. apply (nd_idx _ _ _ _ (iv_nodes _ _ _ _ _ H0)). left. exists i. split; [exact C|].
  apply (nd_real _ _ _ _ (iv_nodes _ _ _ _ _ H0)). exact (live_lt p _ _ (chosen_live p _ _ C)).
Qed.
Lemma addr_inj i j a : at_address p i a -> at_address p j a -> i = j.
Proof.
  intros [s1 E1] [s2 E2]. pose proof (wf_addrs _ W) as ND. assert (L : i < length (map fst (pg_defined p))) by (rewrite map_length; apply nth_error_Some; rewrite E1; discriminate).
  apply (proj1 (NoDup_nth_error _) ND i j L). rewrite !nth_error_map, E1, E2. reflexivity.
Qed.
Lemma node_at_spec a v : node_at (e_indices e) (n_addr2name nd0) a = Ret v -> at_address p v a.
Proof.
  unfold node_at. destruct (bget (n_addr2name nd0) a) as [c|] eqn:E; [|discriminate]. apply (rn_addr _ _ _ _ R) in E. rewrite upto_all in E. destruct E as [j [A C]].
  rewrite (idx _ _ C). intros X. injection X as <-. exact A.
Qed.

Lemma bls_adds caller address offs x y : (forall q, In q (snd x) -> In q (gedges (fst x))) ->
  ofold (add_bl (e_indices e) (n_addr2name nd0) caller address) offs x = Ret y ->
  adds caller (fun v => exists off, In off offs /\ at_address p v (bl_addr address off)) x y.
Proof.
  intros S E. apply (adds_ofold caller _ (fun off v => at_address p v (bl_addr address off)) offs) with (2 := S) (3 := E).
  intros off x' y' _ S' E'. unfold add_bl in E'. destruct (bind_inv _ _ _ E') as [v [E1 E2]]. injection E2 as <-. apply node_at_spec in E1.
  apply (adds_iff caller (eq v)); [|exact (adds_once caller v x' S')]. intros w. split; [intros <-; exact E1 | intros K; exact (addr_inj _ _ _ E1 K)].
Qed.
Lemma bs_adds caller address size offs x y : (forall q, In q (snd x) -> In q (gedges (fst x))) ->
  ofold (add_b (e_indices e) (n_addr2name nd0) caller address size) offs x = Ret y ->
  adds caller (fun v => exists off, In off offs /\ at_address p v (b_addr address off) /\ leaves address size (b_addr address off)) x y.
Proof.
  intros S E. apply (adds_ofold caller _ (fun off v => at_address p v (b_addr address off) /\ leaves address size (b_addr address off)) offs) with (2 := S) (3 := E).
  intros off x' y' _ S' E'. unfold add_b in E'. set (t := b_addr address off) in *.
  destruct ((address <=? t)%N && (t <? (address + size) mod 2 ^ 32)%N)%bool eqn:B.
  - injection E' as <-. apply andb_prop in B. destruct B as [B1 B2]. apply N.leb_le in B1. apply N.ltb_lt in B2. apply adds_none.
    intros v [_ [K | K]]; lia.
  - destruct (bind_inv _ _ _ E') as [v [E1 E2]]. injection E2 as <-. apply node_at_spec in E1.
    assert (L : leaves address size t).
    { unfold leaves. apply andb_false_iff in B. destruct B as [B | B]; [left; apply N.leb_gt in B; exact B | right; apply N.ltb_ge in B; exact B]. }
    apply (adds_iff caller (eq v)); [|exact (adds_once caller v x' S')].
    intros w. split; [intros <-; split; assumption | intros [K _]; exact (addr_inj _ _ _ E1 K)].
Qed.

(** Local usage. *)
Definition local0 (c : str) : M_stack.local := match sget (pg_sizes p) c with Some k => LExact k | None => LUnknown end.
Lemma llvm_size_some i c k : chosen p i c -> sget (pg_sizes p) c = Some k -> llvm_size p i (Some k).
Proof. intros C E. exists c. split; [exact C|]. apply (sget_In _ _ _ (wf_sizes _ W)). exact E. Qed.
Lemma llvm_size_none i c : chosen p i c -> sget (pg_sizes p) c = None -> llvm_size p i None.
Proof. intros C E. exists c. split; [exact C|]. apply sget_None in E. intros [k K]. apply E. exists k. exact K. Qed.
Lemma asm_iff i c : chosen p i c -> (smem c (e_asm e) = true <-> has_asm p i).
Proof.
  intros C. rewrite smem_In, (ot_asm _ _ _ _ (iv_other _ _ _ _ _ H0)). split.
  - intros [j [code [K1 K2]]]. exists code. rewrite (chosen_inj p W _ _ _ C K2). apply Hb. exact K1.
  - intros [code K]. exists i, code. split; [apply Hb; exact K | exact C].
Qed.
Lemma outlined_iff i c : chosen p i c -> (is_outlined_function c = true <-> outlined p i).
Proof. intros C. rewrite outlined_spec. split; [intros K; exists c; split; assumption | intros [c' [C' K]]; rewrite (chosen_fun p _ _ _ C C'); exact K]. Qed.
Lemma settle_usage i c addr size a l : chosen p i c -> analysed p i addr size a ->
  settle_local (smem c (e_asm e)) (is_outlined_function c) (local0 c) a = Ret l -> usage p i l.
Proof.
  intros C A E. unfold settle_local in E. destruct (bind_inv _ _ _ E) as [[] [_ E1]]. clear E. pose proof (asm_iff i c C) as HA. pose proof (outlined_iff i c C) as HO.
  unfold local0 in E1. destruct (sget (pg_sizes p) c) as [m|] eqn:Es.
  - pose proof (llvm_size_some _ _ _ C Es) as L. destruct (bind_inv _ _ _ E1) as [m' [E2 E3]]. clear E1.
    assert (E4 : l = LExact m') by (destruct (Bool.eqb _ _); [injection E3 as <-; reflexivity | discriminate E3]). subst l. clear E3.
    destruct (stack a) as [k|] eqn:Ek.
    + destruct (N.eqb_spec m k) as [-> | N].
      * cbn [negb andb] in E2. rewrite (N.eqb_refl k) in E2. cbn [negb andb] in E2. rewrite andb_false_r in E2.
        assert (m' = k) by (destruct (is_outlined_function c); injection E2 as <-; reflexivity). subst m'.
        exact (us_agree _ _ _ _ _ _ A L Ek).
      * cbn [negb andb] in E2. destruct (smem c (e_asm e)) eqn:Ea.
        -- injection E2 as <-. exact (us_asm _ _ _ _ _ _ _ A L Ek (not_eq_sym N) (proj1 HA eq_refl)).
        -- assert (NA : ~ has_asm p i) by (intros K; apply HA in K; discriminate K). destruct (is_outlined_function c) eqn:Eo; [|discriminate E2].
           assert (O : outlined p i) by exact (proj1 HO eq_refl).
           destruct (N.eqb_spec m 0) as [-> | N0]; cbn [andb] in E2.
           ++ destruct (N.eqb_spec k 0) as [-> | Nk]; [exfalso; exact (N eq_refl)|]. cbn [negb] in E2. injection E2 as <-.
              exact (us_outlined _ _ _ _ _ _ A L Ek Nk NA O).
           ++ injection E2 as <-. exact (us_outlined_kept _ _ _ _ _ _ _ A L Ek (not_eq_sym N) N0 NA O).
    + injection E2 as <-. exact (us_no_total _ _ _ _ _ _ A L Ek).
  - pose proof (llvm_size_none _ _ C Es) as L. destruct (stack a) as [k|] eqn:Ek.
    + injection E1 as <-. exact (us_ours _ _ _ _ _ _ A L Ek).
    + destruct (modifies_sp a) eqn:Em; cbn [negb] in E1; injection E1 as <-; [exact (us_unknown _ _ _ _ _ A L Ek Em) | exact (us_untouched _ _ _ _ _ A L Ek Em)].
Qed.

Lemma analysed_fun i a1 s1 x1 a2 s2 x2 : analysed p i a1 s1 x1 -> analysed p i a2 s2 x2 -> a1 = a2 /\ s1 = s2 /\ x1 = x2.
Proof.
  intros [_ [t1 [y1 [z1 [c1 [A1 [B1 [C1 [D1 [E1 F1]]]]]]]]]] [_ [t2 [y2 [z2 [c2 [A2 [B2 [C2 [D2 [E2 F2]]]]]]]]]].
  rewrite A1 in A2. injection A2 as <- <-. rewrite B1 in B2. injection B2 as <-. subst a2. rewrite <- C1 in *. apply code_size_iff in D1, D2. apply slice_iff in E1, E2. rewrite D1 in D2. injection D2 as <-.
  rewrite E1 in E2. injection E2 as <-. rewrite F1 in F2. injection F2 as <-. repeat split.
Qed.
Lemma jumps_iff i addr size a : analysed p i addr size a -> forall j, jumps p i j <->
  (exists off, In off (bls a) /\ at_address p j (bl_addr addr off)) \/
  (exists off, In off (bs a) /\ at_address p j (b_addr addr off) /\ leaves addr size (b_addr addr off)).
Proof.
  intros A j. split.
  - intros [a' [s' [x' [A' K]]]]. destruct (analysed_fun _ _ _ _ _ _ _ A A') as [<- [<- <-]]. exact K.
  - intros K. exists addr, size, a. split; [exact A | exact K].
Qed.
Lemma blind_iff i c addr size a : chosen p i c -> analysed p i addr size a -> (negb (smem c (e_defined e)) && indirect a = true <-> blind p i).
Proof.
  intros C A. rewrite andb_true_iff, negb_true_iff, smem_false, Hd. split.
  - intros [N I]. split; [exists addr, size, a; split; assumption|]. intros n d X L. apply N. exists n, d, i. repeat split; assumption.
  - intros [[a' [s' [x' [A' I]]]] N]. destruct (analysed_fun _ _ _ _ _ _ _ A A') as [<- [<- <-]]. split; [|exact I].
    intros [n [d [j [X [L C']]]]]. rewrite (chosen_inj p W _ _ _ C' C) in L. exact (N n d X L).
Qed.

(** The state after the symbols [0 .. m-1]. *)
Definition showM (m : nat) (k : key) (nd : node) : Prop :=
  match k with
  | KReal i => exists c l, chosen p i c /\ nd = mkNode c l None false /\ if i <? m then usage p i l else l = local0 c
  | KSym n => nd = mkNode n LUnknown None false
  | KCode i => nd = mkNode (lit "?") LUnknown None false
  | _ => False
  end.
Inductive codeE (m : nat) : key -> key -> Prop :=
| ce_jump i j : i < m -> jumps p i j -> codeE m (KReal i) (KReal j)
| ce_blind i : i < m -> blind p i -> codeE m (KReal i) (KCode i).
Record MACH (m : nat) (x : graph node * list (nat * nat)) (ks : list key) : Prop := {
  mc_show : Forall2 (showM m) ks (gnodes (fst x));
  mc_real : forall i, i < length (pg_defined p) -> nth_error ks i = Some (KReal i);
  mc_keys : NoDup ks;
  mc_in : forall k, In k ks <-> (exists i, i < length (pg_defined p) /\ k = KReal i) \/ (exists n, createdE p evs n /\ k = KSym n) \/
                               (exists i, i < m /\ blind p i /\ k = KCode i);
  mc_seen : forall q, In q (snd x) -> In q (gedges (fst x));
  mc_wf : forall u v, In (u, v) (gedges (fst x)) -> u < length ks /\ v < length ks;
  mc_must : forall k l, irE p evs (fun _ => False) k l \/ codeE m k l -> exists u v, nth_error ks u = Some k /\ nth_error ks v = Some l /\ In (u, v) (gedges (fst x));
  mc_may : forall u v, In (u, v) (gedges (fst x)) -> exists k l, nth_error ks u = Some k /\ nth_error ks v = Some l /\ (irE p evs (createdE p evs) k l \/ codeE m k l);
  mc_nodup : nocast evs -> NoDup (gedges (fst x)) /\ forall u v, In (u, v) (gedges (fst x)) -> In (u, v) (snd x) \/ exists i, nth_error ks v = Some (KCode i)
}.

Lemma Forall2_imp {A B} (P Q : A -> B -> Prop) l1 l2 : (forall a b, P a b -> Q a b) -> Forall2 P l1 l2 -> Forall2 Q l1 l2.
Proof. intros I H. induction H; constructor; auto. Qed.
Lemma MACH0 : MACH 0 (e_g e, e_seen e) ks0.
Proof.
  destruct H0 as [N E O]. constructor; cbn [fst snd].
  - apply (Forall2_imp (show0 p)); [|exact (nd_show _ _ _ _ N)]. intros k nd. unfold show0, showM. destruct k; try tauto.
    + intros [c [C ->]]. exists c, (local0 c). split; [exact C|]. split; [|reflexivity]. unfold new_node, local0. destruct (sget (pg_sizes p) c); reflexivity.
  - exact (nd_real _ _ _ _ N).
  - exact (nd_keys _ _ _ _ N).
  - intros k. rewrite (nd_in _ _ _ _ N). split; [tauto|]. intros [K | [K | [i [K _]]]]; [left; exact K | right; exact K | lia].
  - exact (es_seen _ _ _ _ E).
  - exact (es_wf _ _ _ _ E).
  - intros k l [K | K]; [exact (es_must _ _ _ _ E k l K)|]. destruct K as [i j K | i K]; lia.
  - intros u v K. destruct (es_may _ _ _ _ E u v K) as [k [l [K1 [K2 K3]]]]. exists k, l. tauto.
  - intros K. destruct (es_nodup _ _ _ _ E K) as [K1 K2]. split; [exact K1|]. intros u v K3. left. exact (K2 _ K3).
Qed.

Lemma Forall2_upd {A B} (P Q : A -> B -> Prop) l1 : forall l2 m (f : B -> B), Forall2 P l1 l2 ->
  (forall i a b, nth_error l1 i = Some a -> nth_error l2 i = Some b -> P a b -> Q a (if i =? m then f b else b)) ->
  Forall2 Q l1 (upd_nth l2 m f).
Proof.
  induction l1 as [|a l1 IH]; intros l2 m f H K; inversion H as [|? b ? l2' H1 H2]; subst.
  - destruct m; constructor.
  - destruct m as [|m]; cbn [upd_nth].
    + constructor; [exact (K 0 a b eq_refl eq_refl H1)|]. clear IH H. pose proof (fun i a' b' => K (S i) a' b') as K'. cbn [nth_error Nat.eqb] in K'. clear K H1.
      induction H2; constructor; [exact (K' 0 _ _ eq_refl eq_refl H)|]. apply IHForall2. intros i a' b' E1 E2. exact (K' (S i) a' b' E1 E2).
    + constructor; [exact (K 0 a b eq_refl eq_refl H1)|]. apply (IH l2' m f H2). intros i a' b' E1 E2. exact (K (S i) a' b' E1 E2).
Qed.
Lemma Forall2_nth {A B} (P : A -> B -> Prop) l1 l2 i a b : Forall2 P l1 l2 -> nth_error l1 i = Some a -> nth_error l2 i = Some b -> P a b.
Proof. intros H. revert i. induction H; intros [|i] E1 E2; try discriminate; cbn [nth_error] in *; [congruence | eauto]. Qed.

Lemma code_step m s x y ks : nth_error (pg_defined p) m = Some s -> MACH m x ks -> exec_code p nd0 e (stext mod 2 ^ 32) text x s = Ret y ->
  exists extra, MACH (S m) y (ks ++ extra).
Proof.
  intros Hm H E. destruct x as [g seen]. unfold exec_code in E.
  destruct (sy_names (snd s)) as [|name rest] eqn:En; [discriminate E|]. destruct (sget (n_aliases nd0) name) as [c|] eqn:Ea; [|discriminate E].
  apply (rn_aliases _ _ _ _ R) in Ea. rewrite upto_all in Ea. destruct Ea as [i' [L C]].
  assert (i' = m).
  { apply (live_inj p W name i' m L). exists (real_names s). split; [exists s; split; [exact Hm | reflexivity]|]. unfold real_names. apply filter_In.
    rewrite En. split; [left; reflexivity|]. destruct L as [ns [[z [_ ->]] Z]]. unfold real_names in Z. apply filter_In in Z. apply Z. }
  subst i'. destruct (bind_inv _ _ _ E) as [size [E1 E']]. clear E. destruct (bind_inv _ _ _ E') as [code [E2 E]]. clear E'.
  destruct (bind_inv _ _ _ E) as [a [E3 E']]. clear E. rewrite (idx _ _ C) in E'.
  set (addr := (fst s mod 2 ^ 32)%N) in *.
  assert (A : analysed p m addr size a).
  { split; [exact Ht|]. exists stext, text, s, code. apply code_size_iff in E1. apply slice_iff in E2. repeat split; assumption. }
  destruct (bind_inv _ _ _ E') as [loc [E4 E]]. clear E'. destruct (bind_inv _ _ _ E) as [loc' [E5 E']]. clear E. cbv zeta in E'.
  pose proof (live_lt p _ _ L) as Lm. pose proof (mc_real _ _ _ H m Lm) as Rm. pose proof (Forall2_len _ _ _ (mc_show _ _ _ H)) as Len. cbn [fst] in Len.
  assert (E6 : loc = local0 c).
  { unfold get_local in E4. destruct (nth_error (gnodes g) m) as [nd|] eqn:Eg; [|discriminate E4]. injection E4 as <-.
    pose proof (Forall2_nth _ _ _ _ _ _ (mc_show _ _ _ H) Rm Eg) as K. cbn [showM] in K. destruct K as [c' [l' [C' [-> K]]]].
    rewrite Nat.ltb_irrefl in K. rewrite K. cbn [nlocal]. rewrite (chosen_fun p _ _ _ C' C). reflexivity. }
  subst loc. pose proof (settle_usage _ _ _ _ _ _ C A E5) as U.
  set (g1 := set_node_local g m loc') in *.
  assert (Sh : Forall2 (showM (S m)) ks (gnodes g1)).
  { unfold g1, set_node_local. cbn [gnodes]. apply (Forall2_upd (showM m)); [exact (mc_show _ _ _ H)|]. intros i k nd K1 K2 K3. unfold showM in *. destruct k as [j| | | |].
    - assert (j = i).
      { destruct K3 as [c' [_ [C' _]]]. pose proof (live_lt p _ _ (chosen_live p _ _ C')) as Lj. pose proof (mc_real _ _ _ H j Lj) as Rj.
        assert (Li : i < length ks) by (apply nth_error_Some; rewrite K1; discriminate).
        symmetry. apply (proj1 (NoDup_nth_error ks) (mc_keys _ _ _ H) i j Li). congruence. }
      subst j. destruct K3 as [c' [l' [C' [-> K]]]]. destruct (Nat.eqb_spec i m) as [-> | N].
      + exists c, loc'. split; [exact C|]. split; [rewrite (chosen_fun p _ _ _ C C'); reflexivity|]. rewrite (proj2 (Nat.ltb_lt m (S m))) by lia. exact U.
      + exists c', l'. split; [exact C'|]. split; [reflexivity|]. destruct (Nat.ltb_spec i (S m)) as [X | X], (Nat.ltb_spec i m) as [Y | Y]; try exact K; lia.
    - assert (N : i =? m = false) by (apply Nat.eqb_neq; intros ->; congruence). rewrite N. exact K3.
    - assert (N : i =? m = false) by (apply Nat.eqb_neq; intros ->; congruence). rewrite N. exact K3.
    - destruct K3.
    - destruct K3. }
  pose proof (blind_iff _ _ _ _ _ C A) as B.
  assert (Stp : exists extra g2, (if negb (smem c (e_defined e)) && indirect a then
       (let '(g, callee) := add_node g1 (new_node (lit "?") None false) in add_edge g m callee) else g1) = g2 /\
     Forall2 (showM (S m)) (ks ++ extra) (gnodes g2) /\ NoDup (ks ++ extra) /\
     (forall k, In k extra <-> blind p m /\ k = KCode m) /\
     (forall u v, In (u, v) (gedges g2) <-> In (u, v) (gedges g) \/ (u = m /\ nth_error (ks ++ extra) v = Some (KCode m))) /\
     (NoDup (gedges g) -> NoDup (gedges g2)) /\ (forall u v, In (u, v) (gedges g2) -> u < length (ks ++ extra) /\ v < length (ks ++ extra))).
  { assert (NK : ~ In (KCode m) ks).
    { intros K. apply (mc_in _ _ _ H) in K. destruct K as [[i [_ K]] | [[n [_ K]] | [i [K1 [_ K]]]]]; try discriminate K. injection K as <-. lia. }
    destruct (negb (smem c (e_defined e)) && indirect a) eqn:Eb.
    - exists [KCode m], (let '(g, callee) := add_node g1 (new_node (lit "?") None false) in add_edge g m callee). split; [reflexivity|].
      cbn [add_node add_edge gnodes gedges]. assert (Lg : length (gnodes g1) = length ks) by (symmetry; exact (Forall2_len _ _ _ Sh)). rewrite Lg.
      split; [apply Forall2_snoc; [exact Sh | reflexivity]|]. split; [apply NoDup_snoc; [exact (mc_keys _ _ _ H) | exact NK]|]. split; [|split; [|split]].
      + intros k. cbn [In]. split; [intros [<- | []]; split; [apply B; reflexivity | reflexivity] | intros [_ ->]; left; reflexivity].
      + intros u v. unfold g1, set_node_local. cbn [gedges]. rewrite in_app_iff. cbn [In]. split.
        * intros [K | [K | []]]; [left; exact K|]. injection K as <- <-. right. split; [reflexivity|]. apply nth_snoc. right. split; reflexivity.
        * intros [K | [-> K]]; [left; exact K|]. right. left. apply nth_snoc in K. destruct K as [K | [-> _]]; [exfalso; apply NK; exact (nth_error_In _ _ K) | reflexivity].
      + intros ND. apply NoDup_snoc; [exact ND|]. intros K. apply (mc_wf _ _ _ H) in K. lia.
      + intros u v. rewrite in_app_iff, app_length. cbn [In length]. intros [K | [K | []]].
        * apply (mc_wf _ _ _ H) in K. lia.
        * injection K as <- <-. assert (m < length ks) by (apply nth_error_Some; rewrite Rm; discriminate). lia.
    - exists [], g1. rewrite app_nil_r. split; [reflexivity|]. split; [exact Sh|]. split; [exact (mc_keys _ _ _ H)|]. split; [|split; [|split]].
      + intros k. split; [intros [] | intros [K _]]. apply B in K. discriminate K.
      + intros u v. unfold g1, set_node_local. cbn [gedges]. split; [tauto|]. intros [K | [_ K]]; [exact K|]. exfalso. apply NK. exact (nth_error_In _ _ K).
      + intros K. exact K.
      + exact (mc_wf _ _ _ H). }
  destruct Stp as [extra [g2 [Eg2 [Sh2 [ND2 [Ex2 [Ed2 [Du2 Wf2]]]]]]]]. rewrite Eg2 in E'. clear Eg2. exists extra.
  destruct (bind_inv _ _ _ E') as [z [E7 E8]]. clear E'.
  assert (S2 : forall q, In q (snd (g2, seen)) -> In q (gedges (fst (g2, seen)))).
  { cbn [fst snd]. intros [u v] K. apply Ed2. left. exact (mc_seen _ _ _ H _ K). }
  pose proof (bls_adds _ _ _ _ _ S2 E7) as A1. pose proof (bs_adds _ _ _ _ _ _ (adds_seen _ _ _ _ S2 A1) E8) as A2.
  pose proof (adds_trans _ _ _ _ _ _ S2 A1 A2) as A3.
  apply (adds_iff _ _ (jumps p m)) in A3; [|intros v; symmetry; apply (jumps_iff _ _ _ _ A)]. clear A1 A2 E7 E8 z.
  destruct A3 as [D1 [D2 [D3 D4]]]. cbn [fst snd] in *.
  assert (Rx : forall j, j < length (pg_defined p) -> nth_error (ks ++ extra) j = Some (KReal j)) by (intros j Hj; apply nth_app_l; exact (mc_real _ _ _ H j Hj)).
  assert (Jl : forall j, jumps p m j -> j < length (pg_defined p)).
  { intros j J. apply (jumps_iff _ _ _ _ A) in J. destruct J as [[off [_ [sy J]]] | [off [_ [[sy J] _]]]]; apply nth_error_Some; rewrite J; discriminate. }
  constructor.
  - rewrite D1. exact Sh2.
  - exact Rx.
  - exact ND2.
  - intros k. rewrite in_app_iff, Ex2, (mc_in _ _ _ H). split.
    + intros [[K | [K | [i [K1 K2]]]] | [K ->]]; [left; exact K | right; left; exact K | right; right; exists i; split; [lia | exact K2]|].
      right. right. exists m. repeat split; [lia | apply K | apply K].
    + intros [K | [K | [i [K1 [K2 ->]]]]]; [left; left; exact K | left; right; left; exact K|]. destruct (Nat.eq_dec i m) as [-> | N]; [right; split; [exact K2 | reflexivity]|].
      left. right. right. exists i. repeat split; [lia | apply K2 | apply K2].
  - intros [u v] K. apply D3 in K. apply D2. destruct K as [K | K]; [left; apply Ed2; left; exact (mc_seen _ _ _ H _ K) | right; exact K].
  - intros u v K. apply D2 in K. destruct K as [K | [w [K1 K2]]]; [exact (Wf2 u v K)|]. injection K2 as -> ->.
    split; apply nth_error_Some; rewrite Rx; try discriminate; [exact Lm | exact (Jl _ K1)].
  - intros k l K. assert (Old : irE p evs (fun _ => False) k l \/ codeE m k l -> exists u v, nth_error (ks ++ extra) u = Some k /\ nth_error (ks ++ extra) v = Some l /\ In (u, v) (gedges (fst y))).
    { intros K'. destruct (mc_must _ _ _ H k l K') as [u [v [X1 [X2 X3]]]]. exists u, v. split; [apply nth_app_l; exact X1 | split; [apply nth_app_l; exact X2|]].
      apply D2. left. apply Ed2. left. exact X3. }
    destruct K as [K | K]; [apply Old; left; exact K|]. destruct K as [i j K1 K2 | i K1 K2].
    + destruct (Nat.eq_dec i m) as [-> | N]; [|apply Old; right; apply ce_jump; [lia | exact K2]].
      exists m, j. split; [exact (Rx m Lm) | split; [exact (Rx j (Jl j K2))|]]. apply D2. right. exists j. split; [exact K2 | reflexivity].
    + destruct (Nat.eq_dec i m) as [-> | N]; [|apply Old; right; apply ce_blind; [lia | exact K2]].
      assert (I : In (KCode m) (ks ++ extra)) by (apply in_or_app; right; apply Ex2; split; [exact K2 | reflexivity]). apply In_nth_error in I. destruct I as [v I].
      exists m, v. split; [exact (Rx m Lm) | split; [exact I|]]. apply D2. left. apply Ed2. right. split; [reflexivity | exact I].
  - intros u v K. apply D2 in K. destruct K as [K | [w [K1 K2]]].
    + apply Ed2 in K. destruct K as [K | [-> K]].
      * destruct (mc_may _ _ _ H u v K) as [k [l [X1 [X2 X3]]]]. exists k, l. split; [apply nth_app_l; exact X1 | split; [apply nth_app_l; exact X2|]].
        destruct X3 as [X3 | X3]; [left; exact X3 | right]. destruct X3 as [i j Y1 Y2 | i Y1 Y2]; [apply ce_jump | apply ce_blind]; try assumption; lia.
      * exists (KReal m), (KCode m). split; [exact (Rx m Lm) | split; [exact K|]]. right. apply ce_blind; [lia|].
        apply nth_error_In in K. apply in_app_or in K. destruct K as [K | K]; [|apply Ex2 in K; apply K].
        apply (mc_in _ _ _ H) in K. destruct K as [[i [_ K]] | [[n [_ K]] | [i [_ [K1 K]]]]]; try discriminate K. injection K as ->. exact K1.
    + injection K2 as -> ->. exists (KReal m), (KReal w). split; [exact (Rx m Lm) | split; [exact (Rx w (Jl w K1))|]]. right. apply ce_jump; [lia | exact K1].
  - intros NC. destruct (mc_nodup _ _ _ H NC) as [K1 K2]. cbn [fst snd] in K1, K2.
    assert (Old : forall u v, In (u, v) (gedges g2) -> In (u, v) seen \/ exists i, nth_error (ks ++ extra) v = Some (KCode i)).
    { intros u v K. apply Ed2 in K. destruct K as [K | [_ K]]; [|right; exists m; exact K]. destruct (K2 u v K) as [X | [i X]]; [left; exact X | right; exists i; apply nth_app_l; exact X]. }
    split.
    + apply D4; [exact (Du2 K1)|]. intros v J K. destruct (Old _ _ K) as [X | [i X]]; [exact X|]. rewrite (Rx v (Jl v J)) in X. discriminate X.
    + intros u v K. apply D2 in K. destruct K as [K | K].
      * destruct (Old _ _ K) as [X | X]; [left; apply D3; left; exact X | right; exact X].
      * left. apply D3. right. exact K.
Qed.

Lemma code_steps l2 : forall l1 x y ks, pg_defined p = l1 ++ l2 -> MACH (length l1) x ks -> ofold (exec_code p nd0 e (stext mod 2 ^ 32) text) l2 x = Ret y ->
  exists ex, MACH (length (pg_defined p)) y (ks ++ ex).
Proof.
  induction l2 as [|s l2 IH]; intros l1 x y ks El H E; cbn [ofold] in E.
  - injection E as <-. rewrite El, app_nil_r. exists []. rewrite app_nil_r. exact H.
  - destruct (bind_inv _ _ _ E) as [z [E1 E2]].
    assert (Hm : nth_error (pg_defined p) (length l1) = Some s) by (rewrite El, nth_error_app2, Nat.sub_diag by lia; reflexivity).
    destruct (code_step _ _ _ _ _ Hm H E1) as [extra H1]. destruct (IH (l1 ++ [s]) z y (ks ++ extra)) as [ex H2]; [rewrite <- app_assoc; exact El | rewrite app_length, Nat.add_comm; exact H1 | exact E2|].
    exists (extra ++ ex). rewrite app_assoc. exact H2.
Qed.
End Machine.
