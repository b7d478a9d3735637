(** Lemmas: the edges added by the machine code, one by one. *)
From Coq Require Import Permutation.
From Verif Require L_analysis.
From Verif Require Import M_base M_stack M_graph M_analysis M_filter M_names M_thumb M_ty M_parse M_build S_names S_build S_calls L_base L_names L_build1 L_build2 L_build3 L_build4 L_build5 L_build9 L_calls1.

Definition gs (x : graph node * list (nat * nat)) : list (nat * nat) * list (nat * nat) := (gedges (fst x), snd x).
Lemma gs_once i v x : gs (add_once i v x) = add1 i (gs x) v.
Proof. destruct x as [g seen]. unfold gs, add_once, add1. cbn [fst snd]. now destruct (pmem (i, v) seen). Qed.
Lemma fold_adds {X} i (f : graph node * list (nat * nat) -> X -> outcome (graph node * list (nat * nat))) (V : X -> nat -> Prop) l :
  (forall o x y, In o l -> f x o = Ret y -> exists vs, gs y = fold_left (add1 i) vs (gs x) /\ forall v, In v vs <-> V o v) ->
  forall x y, ofold f l x = Ret y -> exists vs, gs y = fold_left (add1 i) vs (gs x) /\ forall v, In v vs <-> exists o, In o l /\ V o v.
Proof.
  induction l as [|o l IH]; intros F x y E; cbn [ofold] in E.
  - injection E as <-. exists []. split; [reflexivity|]. intros v. split; [intros [] | intros [o [[] _]]].
  - destruct (bind_inv _ _ _ E) as [z [E1 E2]]. destruct (F o x z (or_introl eq_refl) E1) as [v1 [G1 I1]]. destruct (IH (fun o' x' y' H => F o' x' y' (or_intror H)) z y E2) as [v2 [G2 I2]].
    exists (v1 ++ v2). split; [now rewrite fold_left_app, <- G1|]. intros v. rewrite in_app_iff, I1, I2. split.
    + intros [H|[o' [H K]]]; [exists o; split; [now left | exact H] | exists o'; split; [now right | exact K]].
    + intros [o' [[<-|H] K]]; [now left | right; now exists o'].
Qed.

Section Machine.
Variables (demangle : str -> str) (p : prog) (nd0 : nodes) (evs : list event) (e : edgest) (ks0 : list key).
Hypothesis (W : wf_prog p) (R : RN demangle p (pg_defined p) nd0) (H0 : INV p nd0 evs e ks0).
Hypothesis (Hb : forall i st, In (i, st) evs <-> body p i st).
Hypothesis (Hd : forall c, In c (e_defined e) <-> exists n d i, In (n, d) (pg_defines p) /\ live p n i /\ chosen p i c).
Variables (stext : N) (text : str).
Hypothesis (Ht : is_thumb (pg_target p) = true) (Hx : pg_text p = Some (stext, text)).
Notation node_at_spec := (node_at_spec demangle p nd0 evs e ks0 R H0).

Lemma code_adds m s g seen y : nth_error (pg_defined p) m = Some s -> exec_code p nd0 e (stext mod 2 ^ 32) text (g, seen) s = Ret y ->
  exists vs b, gs y = fold_left (add1 m) vs (gedges g ++ b, seen) /\ (forall v, In v vs <-> jumps p m v) /\
    ((blind p m /\ b = [(m, length (gnodes g))]) \/ (~ blind p m /\ b = [])).
Proof.
  intros Hm E. unfold exec_code in E.
  destruct (sy_names (snd s)) as [|name rest] eqn:En; [discriminate E|]. destruct (sget (n_aliases nd0) name) as [c|] eqn:Ea; [|discriminate E].
  apply (rn_aliases _ _ _ _ R) in Ea. rewrite upto_all in Ea. destruct Ea as [i' [L C]].
  assert (i' = m).
  { apply (live_inj p W name i' m L). exists (real_names s). split; [exists s; split; [exact Hm | reflexivity]|]. unfold real_names. apply filter_In.
    rewrite En. split; [left; reflexivity|]. destruct L as [ns [[z [_ ->]] Z]]. unfold real_names in Z. apply filter_In in Z. apply Z. }
  subst i'. destruct (bind_inv _ _ _ E) as [size [E1 E']]. clear E. destruct (bind_inv _ _ _ E') as [code [E2 E]]. clear E'.
  destruct (bind_inv _ _ _ E) as [a [E3 E']]. clear E. rewrite (idx p nd0 evs e ks0 H0 _ _ C) in E'.
  set (addr := (fst s mod 2 ^ 32)%N) in *.
  assert (A : analysed p m addr size a).
  { split; [exact Ht|]. exists stext, text, s, code. apply code_size_iff in E1. apply slice_iff in E2. repeat split; assumption. }
  destruct (bind_inv _ _ _ E') as [loc [E4 E]]. clear E'. destruct (bind_inv _ _ _ E) as [loc' [E5 E']]. clear E. cbv zeta in E'.
  destruct (bind_inv _ _ _ E') as [z [E6 E7]]. clear E'.
  destruct (fold_adds m (add_bl (e_indices e) (n_addr2name nd0) m addr) (fun off v => at_address p v (bl_addr addr off)) (bls a)) with (2 := E6) as [v1 [G1 I1]].
  { intros off x' y' _ X. unfold add_bl in X. destruct (bind_inv _ _ _ X) as [v [X1 X2]]. injection X2 as <-. apply node_at_spec in X1. exists [v]. split; [apply gs_once|].
    intros w. split; [intros [<-|[]]; exact X1 | intros K; left; exact (addr_inj p W _ _ _ X1 K)]. }
  destruct (fold_adds m (add_b (e_indices e) (n_addr2name nd0) m addr size) (fun off v => at_address p v (b_addr addr off) /\ leaves addr size (b_addr addr off)) (bs a)) with (2 := E7) as [v2 [G2 I2]].
  { intros off x' y' _ X. unfold add_b in X. set (t := b_addr addr off) in *. destruct ((addr <=? t)%N && (t <? (addr + size) mod 2 ^ 32)%N)%bool eqn:B.
    - injection X as <-. apply andb_prop in B. destruct B as [B1 B2]. apply N.leb_le in B1. apply N.ltb_lt in B2. exists []. split; [reflexivity|].
      intros v. split; [intros []|]. intros [_ [K | K]]; lia.
    - destruct (bind_inv _ _ _ X) as [v [X1 X2]]. injection X2 as <-. apply node_at_spec in X1. exists [v]. split; [apply gs_once|].
      assert (Lv : leaves addr size t).
      { unfold leaves. apply andb_false_iff in B. destruct B as [B | B]; [left; apply N.leb_gt in B; exact B | right; apply N.ltb_ge in B; exact B]. }
      intros w. split; [intros [<-|[]]; now split | intros [K _]; left; exact (addr_inj p W _ _ _ X1 K)]. }
  exists (v1 ++ v2). pose proof (blind_iff p e W Hd _ _ _ _ _ C A) as B.
  exists (if negb (smem c (e_defined e)) && indirect a then [(m, length (gnodes g))] else []). split; [|split].
  - rewrite fold_left_app, G2, G1. f_equal. f_equal. unfold gs. cbn [fst snd]. f_equal.
    destruct (negb (smem c (e_defined e)) && indirect a); [|now rewrite app_nil_r]. cbn [add_node add_edge set_node_local gedges gnodes].
    f_equal. f_equal. f_equal. unfold set_node_local. cbn [gnodes]. apply L_analysis.upd_nth_length.
  - intros v. rewrite (jumps_iff p _ _ _ _ A), in_app_iff, I1, I2. reflexivity.
  - destruct (negb (smem c (e_defined e)) && indirect a); [left; split; [now apply B | reflexivity]|]. right. split; [|reflexivity]. intros K. apply B in K. discriminate K.
Qed.

Record CODE (m : nat) (x : graph node * list (nat * nat)) (ks : list key) (C B : list (nat * nat)) : Prop := {
  cd_all : Permutation (gedges (fst x)) (C ++ B ++ snd x);
  cd_once : NoDup (snd x);
  cd_seen : forall u v, In (u, v) (snd x) <-> In (u, v) (e_seen e) \/ (u < m /\ jumps p u v);
  cd_blind : forall u v, In (u, v) B <-> nth_error ks v = Some (KCode u);
  cd_blind1 : NoDup B
}.
Lemma code_count m s x y ks extra C B : nth_error (pg_defined p) m = Some s -> MACH p evs m x ks -> exec_code p nd0 e (stext mod 2 ^ 32) text x s = Ret y -> MACH p evs (S m) y (ks ++ extra) ->
  CODE m x ks C B -> exists B', CODE (S m) y (ks ++ extra) C B'.
Proof.
  intros Hm H E H' [T1 T2 T3 T4 T5]. destruct x as [g seen]. cbn [fst snd] in *. destruct (code_adds _ _ _ _ _ Hm E) as [vs [b [G [J Bl]]]].
  pose proof (Forall2_len _ _ _ (mc_show _ _ _ _ _ H)) as Len. cbn [fst] in Len.
  assert (Ex : forall k, In k extra <-> blind p m /\ k = KCode m).
  { intros k. pose proof (mc_keys _ _ _ _ _ H') as ND. split.
    - intros K. assert (Nk : ~ In k ks) by (intros K'; apply nodup_app in ND; destruct ND as [_ [_ D]]; exact (D k K' K)).
      assert (K1 : In k (ks ++ extra)) by (apply in_or_app; now right). apply (mc_in _ _ _ _ _ H') in K1. destruct K1 as [K1|[K1|[i [Li [Bi ->]]]]].
      + destruct Nk. apply (mc_in _ _ _ _ _ H). now left.
      + destruct Nk. apply (mc_in _ _ _ _ _ H). right. now left.
      + destruct (Nat.eq_dec i m) as [->|N]; [now split|]. destruct Nk. apply (mc_in _ _ _ _ _ H). right. right. exists i. split; [lia | now split].
    - intros [Bm ->]. assert (K1 : In (KCode m) (ks ++ extra)) by (apply (mc_in _ _ _ _ _ H'); right; right; exists m; split; [lia | now split]).
      apply in_app_or in K1. destruct K1 as [K1|K1]; [|exact K1]. apply (mc_in _ _ _ _ _ H) in K1. destruct K1 as [[i [_ K1]]|[[n [_ K1]]|[i [Li [_ K1]]]]]; try discriminate K1. injection K1 as <-. lia. }
  assert (Ee : (blind p m /\ extra = [KCode m]) \/ (~ blind p m /\ extra = [])).
  { pose proof (mc_keys _ _ _ _ _ H') as ND. apply nodup_app in ND. destruct ND as [_ [ND _]]. destruct extra as [|k1 [|k2 r]].
    - right. split; [|reflexivity]. intros K. assert (I : In (KCode m) []) by (apply Ex; now split). destruct I.
    - left. destruct (proj1 (Ex k1) (or_introl eq_refl)) as [K ->]. now split.
    - exfalso. destruct (proj1 (Ex k1) (or_introl eq_refl)) as [_ ->]. destruct (proj1 (Ex k2) (or_intror (or_introl eq_refl))) as [_ ->]. inversion ND as [|? ? N _]. apply N. now left. }
  assert (P : Permutation (gedges g ++ b) ((C ++ B ++ b) ++ seen)).
  { rewrite T1. rewrite <- !app_assoc. apply Permutation_app_head. apply Permutation_app_head. apply Permutation_app_comm. }
  destruct (add1_many m vs (gedges g ++ b) seen (C ++ B ++ b) P T2) as [K1 [K2 K3]]. rewrite <- G in K1, K2, K3. unfold gs in K1, K2, K3. cbn [fst snd] in K1, K2, K3.
  exists (B ++ b). constructor; cbn [fst snd].
  - rewrite K1. rewrite <- !app_assoc. reflexivity.
  - exact K2.
  - intros u v. rewrite K3, T3. split.
    + intros [[K|[K1' K2']]|[w [K Q]]]; [now left | right; split; [lia | exact K2']|]. injection Q as -> ->. right. split; [lia | now apply J].
    + intros [K|[K1' K2']]; [left; now left|]. destruct (Nat.eq_dec u m) as [->|N]; [right; exists v; split; [now apply J | reflexivity]|]. left. right. split; [lia | exact K2'].
  - intros u v. rewrite in_app_iff, T4. destruct Bl as [[Bm ->]|[Bm ->]], Ee as [[Bm' ->]|[Bm' ->]]; try (exfalso; now auto).
    + rewrite nth_snoc. cbn [In]. rewrite <- Len. split.
      * intros [K|[K|[]]]; [now left|]. injection K as -> ->. right. now split.
      * intros [K|[-> K]]; [now left|]. injection K as ->. right. now left.
    + rewrite app_nil_r. cbn [In]. tauto.
  - destruct Bl as [[_ ->]|[_ ->]]; [|now rewrite app_nil_r]. apply NoDup_snoc; [exact T5|]. intros K. apply T4 in K. assert (Lt : length (gnodes g) < length ks) by (apply nth_error_Some; rewrite K; discriminate). lia.
Qed.
Lemma code_counts l2 : forall l1 x y ks C B, pg_defined p = l1 ++ l2 -> MACH p evs (length l1) x ks -> CODE (length l1) x ks C B -> ofold (exec_code p nd0 e (stext mod 2 ^ 32) text) l2 x = Ret y ->
  exists ex B', MACH p evs (length (pg_defined p)) y (ks ++ ex) /\ CODE (length (pg_defined p)) y (ks ++ ex) C B'.
Proof.
  induction l2 as [|s l2 IH]; intros l1 x y ks C B El H T E; cbn [ofold] in E.
  - injection E as <-. rewrite El, app_nil_r. exists [], B. rewrite app_nil_r. now split.
  - destruct (bind_inv _ _ _ E) as [z [E1 E2]].
    assert (Hm : nth_error (pg_defined p) (length l1) = Some s) by (rewrite El, nth_error_app2, Nat.sub_diag by lia; reflexivity).
    destruct (code_step demangle p nd0 evs e ks0 W R H0 Hb Hd stext text Ht Hx _ _ _ _ _ Hm H E1) as [extra H1]. destruct (code_count _ _ _ _ _ _ _ _ Hm H E1 H1 T) as [B1 T1].
    destruct (IH (l1 ++ [s]) z y (ks ++ extra) C B1) as [ex [B2 K]]; [rewrite <- app_assoc; exact El | rewrite app_length, Nat.add_comm; exact H1 | rewrite app_length, Nat.add_comm; exact T1 | exact E2|].
    exists (extra ++ ex), B2. rewrite app_assoc. exact K.
Qed.
End Machine.

(** The edges before those of the function pointers. *)
Record BCNT (p : prog) (tr : list (nat * stmt)) (g : graph node) (ks : list key) (C O : list (nat * nat)) : Prop := {
  bc_all : Permutation (gedges g) (C ++ O);
  bc_once : NoDup O;
  bc_in : forall u v, In (u, v) O <-> exists l, nth_error ks v = Some l /\ (calls p tr u l \/ (blind p u /\ l = KCode u));
  bc_cast : Forall2 (fun c x => fst x = fst c /\ exists l, nth_error ks (snd x) = Some l /\ cast_target p (snd c) l) (casts tr) C
}.
Section Before.
Variables (demangle : str -> str) (p : prog) (nd0 : nodes) (evs : list event) (e : edgest) (ks0 : list key) (C : list (nat * nat)).
Hypothesis (W : wf_prog p) (R : RN demangle p (pg_defined p) nd0) (H0 : INV p nd0 evs e ks0) (T0 : CNT p evs e ks0 C).
Hypothesis (Hb : forall i st, In (i, st) evs <-> body p i st).
Hypothesis (Hd : forall c, In c (e_defined e) <-> exists n d i, In (n, d) (pg_defines p) /\ live p n i /\ chosen p i c).
Lemma plain_count : (is_thumb (pg_target p) = false \/ pg_text p = None) -> BCNT p evs (e_g e) ks0 C (e_seen e).
Proof.
  intros T. assert (NA : forall i a s x, ~ analysed p i a s x).
  { intros i a s x [A [st [tx [z [c [B _]]]]]]. destruct T as [T | T]; congruence. }
  assert (NJ : forall i j, ~ jumps p i j) by (intros i j [a [s [x [A _]]]]; exact (NA _ _ _ _ A)).
  assert (NB : forall i, ~ blind p i) by (intros i [[a [s [x [A _]]]] _]; exact (NA _ _ _ _ A)).
  destruct T0 as [T1 T2 T3 T4]. constructor; [exact T1 | exact T2 | | exact T4]. intros u v. rewrite T3. split; intros [l [A B]]; exists l; (split; [exact A|]).
  - left. now left.
  - destruct B as [[B|[j [_ B]]]|[B _]]; [exact B | now destruct (NJ u j) | now destruct (NB u)].
Qed.
Lemma machine_count g : machine_edges p nd0 e = Ret g -> exists ex O, BASE p g (ks0 ++ ex) /\ BCNT p evs g (ks0 ++ ex) C O.
Proof.
  unfold machine_edges. intros E. destruct (is_thumb (pg_target p)) eqn:T.
  - destruct (pg_text p) as [[stext text]|] eqn:X.
    + destruct (bind_inv _ _ _ E) as [[g' seen] [E1 E2]]. injection E2 as <-. pose proof (iv_nodes _ _ _ _ _ H0) as HN.
      assert (K0 : CODE p e 0 (e_g e, e_seen e) ks0 C []).
      { destruct T0 as [T1 T2 T3 T4]. constructor; cbn [fst snd app]; [exact T1 | exact T2 | | | constructor].
        - intros u v. split; [now left|]. intros [K|[K _]]; [exact K | lia].
        - intros u v. split; [intros []|]. intros K. apply nth_error_In in K. apply (nd_in _ _ _ _ HN) in K. destruct K as [[i [_ K]]|[n [_ K]]]; discriminate K. }
      destruct (code_counts demangle p nd0 evs e ks0 W R H0 Hb Hd stext text T X (pg_defined p) [] _ _ ks0 C [] eq_refl (MACH0 p nd0 evs e ks0 H0) K0 E1) as [ex [B [H [K1 K2 K3 K4 K5]]]].
      cbn [fst snd] in *. exists ex, (B ++ seen). pose proof (base_machine p evs Hb _ _ T H) as Bs. cbn [fst] in Bs. split; [exact Bs|].
      assert (JL : forall u v, jumps p u v -> u < length (pg_defined p) /\ v < length (pg_defined p)).
      { intros u v J. split.
        - destruct J as [a [s [y [[_ [st [tx [z [c [_ [K _]]]]]]] _]]]]. apply nth_error_Some. rewrite K. discriminate.
        - destruct J as [a [s [y [_ [[off [_ [sym K]]]|[off [_ [[sym K] _]]]]]]]]; apply nth_error_Some; rewrite K; discriminate. }
      assert (Seen : forall u v, In (u, v) seen <-> exists l, nth_error (ks0 ++ ex) v = Some l /\ calls p evs u l).
      { intros u v. rewrite K3, (ct_seen _ _ _ _ _ T0). split.
        - intros [[l [A B']]|[_ A]]; [exists l; split; [now apply nth_app_l | now left]|]. exists (KReal v). split; [apply (ba_real _ _ _ Bs); now apply (JL u v)|]. right. now exists v.
        - intros [l [A [B'|[j [-> B']]]]].
          + left. exists l. split; [|exact B']. assert (I : In l ks0).
            { destruct B' as [b [x [a [-> B']]]]. apply (nd_in _ _ _ _ HN). destruct B' as [f j _ Lj _|f NI NL Mm|f n j _ _ Cj|f n _ _ _ Md].
              - left. exists j. split; [exact (live_lt _ _ _ Lj) | reflexivity].
              - right. exists f. split; [|reflexivity]. destruct (str_eqb_spec f memcmp) as [->|Nm].
                + apply createdE_app. left. exact (Mm eq_refl).
                + left. exists u. split; [apply in_or_app; right; now left|]. now split.
              - left. exists j. split; [exact (live_lt _ _ _ (chosen_live _ _ _ Cj)) | reflexivity].
              - right. exists n. split; [|reflexivity]. apply createdE_app. now left. }
            apply In_nth_error in I. destruct I as [w I]. pose proof (nth_app_l _ ex _ _ I) as I'.
            assert (Lw : w < length (ks0 ++ ex)) by (apply nth_error_Some; rewrite I'; discriminate).
            rewrite <- (proj1 (NoDup_nth_error _) (ba_keys _ _ _ Bs) w v Lw); [exact I | congruence].
          + right. destruct (JL _ _ B') as [J1 J2]. assert (v = j) as ->; [|now split]. pose proof (ba_real _ _ _ Bs j J2) as Rj.
            assert (Lw : v < length (ks0 ++ ex)) by (apply nth_error_Some; rewrite A; discriminate).
            apply (proj1 (NoDup_nth_error _) (ba_keys _ _ _ Bs) v j Lw). congruence. }
      constructor.
      * exact K1.
      * apply NoDup_app_intro; [exact K5 | exact K2|]. intros [u v] A A'. apply K4 in A. apply Seen in A'. destruct A' as [l [A' A2]]. rewrite A in A'. injection A' as <-.
        destruct A2 as [[b [st [a [_ A2]]]]|[j [A2 _]]]; [inversion A2 | discriminate A2].
      * intros u v. rewrite in_app_iff, K4, Seen. split.
        -- intros [A|[l [A A']]]; [|exists l; split; [exact A | now left]]. exists (KCode u). split; [exact A|]. right. split; [|reflexivity].
           apply nth_error_In in A. apply (ba_in _ _ _ Bs) in A. destruct A as [A _]. now inversion A.
        -- intros [l [A [A'|[A' ->]]]]; [right; now exists l | now left].
      * assert (Grow : forall l0 C0, Forall2 (fun c x => fst x = fst c /\ exists l, nth_error ks0 (snd x) = Some l /\ cast_target p (snd c) l) l0 C0 ->
          Forall2 (fun (c : nat * str) (x : nat * nat) => fst x = fst c /\ exists l, nth_error (ks0 ++ ex) (snd x) = Some l /\ cast_target p (snd c) l) l0 C0).
        { intros l0 C0 F. induction F as [|a b l0 C0 [F1 [l [F2 F3]]] F IH]; constructor; [|exact IH]. split; [exact F1|]. exists l. split; [now apply nth_app_l | exact F3]. }
        apply Grow. exact (ct_cast _ _ _ _ _ T0).
    + injection E as <-. exists [], (e_seen e). rewrite app_nil_r. split; [apply (base_plain p nd0 evs e ks0 W H0 Hb); now right | apply plain_count; now right].
  - injection E as <-. exists [], (e_seen e). rewrite app_nil_r. split; [apply (base_plain p nd0 evs e ks0 W H0 Hb); now left | apply plain_count; now left].
Qed.
End Before.
