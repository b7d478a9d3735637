(** The maximum of a function depends on the part of the program that it can reach. *)
From Coq Require Import Permutation.
From Verif Require Import M_base M_stack M_graph M_analysis M_filter M_names M_thumb M_ty M_parse M_render M_build M_run
  S_names S_sig L_base L_ir2 L_driver3 L_filter2 S_graph S_mono S_build S_run S_below L_build1 L_build3 L_build4 L_build5 L_build6 L_build7 L_run L_analysis L_mono L_report L_debug6.

Section Keys.
Variables (p q : prog) (f : nat -> nat) (i : nat) (void : option str).
Notation F := (fun _ : str => False).
Notation R := (fun j => leads p void (KReal i) (KReal j)).
Hypothesis (Sb : same_below p q f R).
Definition moved (k : key) : key := match k with KReal j => KReal (f j) | KCode j => KCode (f j) | _ => k end.
(** A pointer type that can be reached is called by a function that can be reached. *)
Lemma sig_called s : leads p void (KReal i) (KSig s) -> exists j, R j /\ calls_sig p j s.
Proof. intros L. inversion L as [|k m l Lm E]; subst. inversion E; subst. eauto. Qed.
Lemma code_called j : leads p void (KReal i) (KCode j) -> R j.
Proof. intros L. inversion L as [|k m l Lm E]; subst. inversion E; subst. exact Lm. Qed.
Lemma candidates j s : R j -> calls_sig p j s -> calls_sig q (f j) s.
Proof.
  intros Rj [[k T] [s' [B M]]]. split; [|exists s'; split; [apply (sb_body _ _ _ _ Sb); assumption | exact M]].
  exists (f k). apply (sb_sig _ _ _ _ Sb j s s' (f k) Rj B M). exists k. split; [exact T | reflexivity].
Qed.
Lemma candidates_back j s : R j -> calls_sig q (f j) s -> calls_sig p j s.
Proof.
  intros Rj [[k T] [s' [B M]]]. apply (sb_body _ _ _ _ Sb j _ Rj) in B. split; [|exists s'; split; [exact B | exact M]].
  apply (sb_sig _ _ _ _ Sb j s s' k Rj B M) in T. destruct T as [k' [T _]]. exists k'. exact T.
Qed.
Lemma pointees j s y : R j -> calls_sig p j s -> (pointee q void s y <-> exists k, pointee p void s k /\ y = f k).
Proof.
  intros Rj [_ [s' [B M]]]. unfold pointee. split.
  - intros [[v [Ev [Es [r T]]]]|[N T]].
    + subst s. apply (sb_fmt _ _ _ _ Sb j v s' r y Rj B M) in T. destruct T as [k [T ->]]. exists k. split; [left; exists v; split; [exact Ev|]; split; [reflexivity | exists r; exact T] | reflexivity].
    + apply (sb_sig _ _ _ _ Sb j s s' y Rj B M) in T. destruct T as [k [T ->]]. exists k. split; [right; split; [exact N | exact T] | reflexivity].
  - intros [k [[[v [Ev [Es [r T]]]]|[N T]] ->]].
    + subst s. left. exists v. split; [exact Ev|]. split; [reflexivity|]. exists r. apply (sb_fmt _ _ _ _ Sb j v s' r _ Rj B M). exists k. split; [exact T | reflexivity].
    + right. split; [exact N|]. apply (sb_sig _ _ _ _ Sb j s s' _ Rj B M). exists k. split; [exact T | reflexivity].
Qed.
Lemma edge_there k l : leads p void (KReal i) k -> edge p F void k l -> edge q F void (moved k) (moved l).
Proof.
  intros Lk E. destruct E as [j n k B Ni Lv Mc|j n B Ni Lv Mc|j n k B C|j n B C|j n m k T B Lo C|j n m T B Lo C Kn|j k J|j Bl|j s Cs|s k Cd P|s Cd U]; cbn [moved].
  - apply ed_direct with n; [apply (sb_body _ _ _ _ Sb); assumption | exact Ni | apply (sb_live _ _ _ _ Sb j n _ Lk B); exists k; split; [exact Lv | reflexivity]|].
    intros E. destruct (Mc E) as [C|[]]. left. subst n. apply (sb_chosen _ _ _ _ Sb j _ memcmp _ Lk B lu_memcmp). exists k. split; [exact C | reflexivity].
  - apply ed_extern; [apply (sb_body _ _ _ _ Sb); assumption | exact Ni | intros y L; apply (sb_live _ _ _ _ Sb j n _ Lk B) in L; destruct L as [k [L _]]; exact (Lv k L) | exact Mc].
  - apply ed_cast with n; [apply (sb_body _ _ _ _ Sb); assumption | apply (sb_chosen _ _ _ _ Sb j _ n _ Lk B (lu_cast n)); exists k; split; [exact C | reflexivity]].
  - apply ed_cast_extern; [apply (sb_body _ _ _ _ Sb); assumption | intros y L; apply (sb_chosen _ _ _ _ Sb j _ n _ Lk B (lu_cast n)) in L; destruct L as [k [L _]]; exact (C k L)].
  - apply ed_mem with n m; [rewrite (sb_target _ _ _ _ Sb); exact T | apply (sb_body _ _ _ _ Sb); assumption | exact Lo | apply (sb_chosen _ _ _ _ Sb j _ m _ Lk B (lu_lowered n m Lo)); exists k; split; [exact C | reflexivity]].
  - destruct Kn.
  - apply ed_code. apply (sb_jumps _ _ _ _ Sb); [exact Lk|]. exists k. split; [exact J | reflexivity].
  - apply ed_blind. apply (sb_blind _ _ _ _ Sb); assumption.
  - apply ed_pointer. apply candidates; assumption.
  - destruct (sig_called s Lk) as [j [Rj Cs]]. apply ed_pointee; [exists (f j); exact (candidates j s Rj Cs) | apply (pointees j s _ Rj Cs); exists k; split; [exact P | reflexivity]].
  - destruct (sig_called s Lk) as [j [Rj Cs]]. apply ed_outside; [exists (f j); exact (candidates j s Rj Cs) | apply (sb_untyped _ _ _ _ Sb); exact U].
Qed.
Hypothesis (W : wf_prog p).
Lemma edge_back k l' : leads p void (KReal i) k -> edge q F void (moved k) l' -> exists l, edge p F void k l /\ l' = moved l.
Proof.
  intros Lk E. destruct k as [j|n|j|s|s]; cbn [moved] in E.
  - inversion E as [x n k B Ni Lv Mc|x n B Ni Lv Mc|x n k B C|x n B C|x n m k T B Lo C|x n m T B Lo C Kn|x k J|x Bl|x s Cs|s k Cd P|s Cd U]; subst x l'; try (apply (sb_body _ _ _ _ Sb j _ Lk) in B).
    + apply (sb_live _ _ _ _ Sb j n _ Lk B) in Lv. destruct Lv as [k' [Lv ->]]. exists (KReal k'). split; [|reflexivity]. apply ed_direct with n; [exact B | exact Ni | exact Lv|].
      intros En. destruct (Mc En) as [C|[]]. left. subst n. apply (sb_chosen _ _ _ _ Sb j _ memcmp _ Lk B lu_memcmp) in C. destruct C as [k [C Ek]].
      rewrite (live_inj p W memcmp k' k Lv (chosen_live p _ _ C)). exact C.
    + exists (KSym n). split; [|reflexivity]. apply ed_extern; [exact B | exact Ni | | exact Mc]. intros k L. apply (Lv (f k)). apply (sb_live _ _ _ _ Sb j n _ Lk B). exists k. split; [exact L | reflexivity].
    + apply (sb_chosen _ _ _ _ Sb j _ n _ Lk B (lu_cast n)) in C. destruct C as [k' [C ->]]. exists (KReal k'). split; [|reflexivity]. apply ed_cast with n; assumption.
    + exists (KSym n). split; [|reflexivity]. apply ed_cast_extern; [exact B|]. intros k L. apply (C (f k)). apply (sb_chosen _ _ _ _ Sb j _ n _ Lk B (lu_cast n)). exists k. split; [exact L | reflexivity].
    + rewrite (sb_target _ _ _ _ Sb) in T. apply (sb_chosen _ _ _ _ Sb j _ m _ Lk B (lu_lowered n m Lo)) in C. destruct C as [k' [C ->]]. exists (KReal k'). split; [|reflexivity]. apply ed_mem with n m; assumption.
    + destruct Kn.
    + apply (sb_jumps _ _ _ _ Sb j _ Lk) in J. destruct J as [k' [J ->]]. exists (KReal k'). split; [|reflexivity]. apply ed_code. exact J.
    + exists (KCode j). split; [|reflexivity]. apply ed_blind. apply (sb_blind _ _ _ _ Sb j Lk). exact Bl.
    + exists (KSig s). split; [|reflexivity]. apply ed_pointer. exact (candidates_back j s Lk Cs).
  - inversion E.
  - inversion E.
  - destruct (sig_called s Lk) as [j [Rj Cs]].
    inversion E as [x n k B Ni Lv Mc|x n B Ni Lv Mc|x n k B C|x n B C|x n m k T B Lo C|x n m T B Lo C Kn|x k J|x Bl|x s' Cs'|s' k Cd P|s' Cd U]; subst.
    + apply (pointees j s k Rj Cs) in P. destruct P as [k' [P ->]]. exists (KReal k'). split; [|reflexivity]. apply ed_pointee; [exists j; exact Cs | exact P].
    + exists (KExt s). split; [|reflexivity]. apply ed_outside; [exists j; exact Cs | apply (sb_untyped _ _ _ _ Sb); exact U].
  - inversion E.
Qed.
Lemma moved_inj k l : leads p void (KReal i) k -> leads p void (KReal i) l -> moved k = moved l -> k = l.
Proof.
  intros Lk Ll E. destruct k, l; cbn [moved] in E; try discriminate E; injection E as E; try congruence.
  - f_equal. exact (sb_apart _ _ _ _ Sb _ _ Lk Ll E).
  - f_equal. exact (sb_apart _ _ _ _ Sb _ _ (code_called _ Lk) (code_called _ Ll) E).
Qed.
End Keys.

(** Without memory routines outside of the executable the edges are determined. *)
Lemma edge_settled p void R k l : settled p R -> (forall j, k = KReal j -> R j) -> edge p (created p) void k l -> edge p (fun _ => False) void k l.
Proof.
  intros St Rk E. destruct E as [j n m B Ni Lv Mc|j n B Ni Lv Mc|j n m B C|j n B C|j n m x T B Lo C|j n m T B Lo C Kn|j m J|j Bl|j s Cs|s m Cd P|s Cd U].
  - eapply ed_direct; try eassumption. intros En. destruct (Mc En) as [C|C]; [left; exact C|]. destruct (proj1 (St j n (Rk j eq_refl) B) En C).
  - eapply ed_extern; try eassumption. intros En. destruct (proj1 (St j n (Rk j eq_refl) B) En (Mc En)).
  - eapply ed_cast; eassumption.
  - eapply ed_cast_extern; eassumption.
  - eapply ed_mem; eassumption.
  - destruct (proj2 (St j n (Rk j eq_refl) B) m Lo Kn).
  - eapply ed_code; eassumption.
  - eapply ed_blind; eassumption.
  - eapply ed_pointer; eassumption.
  - eapply ed_pointee; eassumption.
  - eapply ed_outside; eassumption.
Qed.

(** ** Positions of keys *)
Definition key_eqb (a b : key) : bool :=
  match a, b with
  | KReal i, KReal j => Nat.eqb i j | KSym m, KSym n => str_eqb m n | KCode i, KCode j => Nat.eqb i j
  | KSig s, KSig t => sig_eqb s t | KExt s, KExt t => sig_eqb s t | _, _ => false
  end.
Lemma key_eqb_eq a b : key_eqb a b = true <-> a = b.
Proof.
  destruct a, b; cbn [key_eqb]; try (split; [discriminate | intros X; discriminate X]).
  - rewrite Nat.eqb_eq. split; [intros ->; reflexivity | intros X; injection X as ->; reflexivity].
  - rewrite str_eqb_eq. split; [intros ->; reflexivity | intros X; injection X as ->; reflexivity].
  - rewrite Nat.eqb_eq. split; [intros ->; reflexivity | intros X; injection X as ->; reflexivity].
  - rewrite sig_eqb_eq. split; [intros ->; reflexivity | intros X; injection X as ->; reflexivity].
  - rewrite sig_eqb_eq. split; [intros ->; reflexivity | intros X; injection X as ->; reflexivity].
Qed.
Fixpoint place (k : key) (ks : list key) : nat := match ks with [] => 0 | x :: l => if key_eqb k x then 0 else S (place k l) end.
Lemma place_at k ks : In k ks -> nth_error ks (place k ks) = Some k.
Proof.
  induction ks as [|x ks IH]; intros I; [destruct I|]. cbn [place]. destruct (key_eqb k x) eqn:E; [apply key_eqb_eq in E; subst x; reflexivity|].
  destruct I as [->|I]; [rewrite (proj2 (key_eqb_eq k k) eq_refl) in E; discriminate E | exact (IH I)].
Qed.

Section View.
Variables (p q : prog) (f : nat -> nat) (i : nat) (void : option str) (ks ks' : list key) (g g' : graph node).
Notation R := (fun j => leads p void (KReal i) (KReal j)).
Hypothesis (W : wf_prog p) (W' : wf_prog q) (Sb : same_below p q f R) (G : graph_of p ks void g) (G' : graph_of q ks' void g').
Hypothesis (St : settled p R) (St' : settled q (fun y => exists j, R j /\ y = f j)).
Hypothesis (Hi : i < length (pg_defined p)) (Hf : f i < length (pg_defined q)).
Definition there (u : nat) : nat := match nth_error ks u with Some k => place (moved f k) ks' | None => 0 end.
Lemma leads_node k : leads p void (KReal i) k -> In (moved f k) ks'.
Proof.
  intros L. remember (KReal i) as k0 eqn:E0. destruct L as [k|k m l L E]; subst.
  - cbn [moved]. apply nth_error_In with (f i). exact (go_real _ _ _ _ G' _ Hf).
  - pose proof (edge_there p q f i void Sb m l L E) as E'. destruct (go_must _ _ _ _ G' _ _ E') as [u [v [_ [V _]]]]. exact (nth_error_In _ _ V).
Qed.
Lemma step_leads u v k : leads p void (KReal i) k -> nth_error ks u = Some k -> calls g u v -> exists l, nth_error ks v = Some l /\ edge p (fun _ => False) void k l /\ leads p void (KReal i) l.
Proof.
  intros L Ku C. destruct (go_wf _ _ _ _ G u v C) as [_ Lv]. destruct (nth_error ks v) as [l|] eqn:Ev; [|apply nth_error_None in Ev; lia].
  pose proof (go_may _ _ _ _ G u v k l C Ku Ev) as E. apply (edge_settled p void R) in E; [|exact St | intros j ->; exact L].
  exists l. split; [reflexivity|]. split; [exact E|]. exact (le_step _ _ _ _ _ L E).
Qed.
Lemma reach_leads a : reach g i a -> exists k, nth_error ks a = Some k /\ leads p void (KReal i) k.
Proof.
  intros Ra. assert (H : forall u w, star (calls g) u w -> forall k, nth_error ks u = Some k -> leads p void (KReal i) k -> exists l, nth_error ks w = Some l /\ leads p void (KReal i) l).
  { intros u w S. induction S as [v|u v w C S IH]; intros k K L; [exists k; split; assumption|]. destruct (step_leads u v k L K C) as [l [V [_ Ll]]]. exact (IH l V Ll). }
  apply (H i a Ra (KReal i)); [exact (go_real _ _ _ _ G _ Hi) | constructor].
Qed.
Lemma there_at a k : nth_error ks a = Some k -> leads p void (KReal i) k -> nth_error ks' (there a) = Some (moved f k).
Proof. intros K L. unfold there. rewrite K. apply place_at. exact (leads_node k L). Qed.
Lemma there_start : there i = f i.
Proof. pose proof (there_at i (KReal i) (go_real _ _ _ _ G _ Hi) (le_here _ _ _)) as T. cbn [moved] in T. exact (real_idx q ks' void g' G' _ _ T). Qed.
Lemma view_below : same_view g g' there i.
Proof.
  constructor.
  - intros a b Ra Rb E. destruct (reach_leads a Ra) as [k [Ka La]], (reach_leads b Rb) as [l [Kb Lb]]. pose proof (there_at a k Ka La) as Ta. pose proof (there_at b l Kb Lb) as Tb. rewrite E, Tb in Ta. injection Ta as Ta.
    apply (moved_inj p q f i void Sb l k Lb La) in Ta. subst l. exact (key_inj p ks void g G _ _ _ Ka Kb).
  - intros a Ra. destruct (reach_leads a Ra) as [k [Ka La]]. pose proof (there_at a k Ka La) as Ta. destruct (show_at p ks void g G _ _ Ka) as [nd [N1 N2]], (show_at q ks' void g' G' _ _ Ta) as [nd' [N1' N2']].
    unfold local_of. rewrite N1, N1'. cbn [option_map]. f_equal. destruct k; cbn [moved] in N2'; inversion N2; inversion N2'; subst; cbn [nlocal]; try reflexivity.
    eapply (usage_fun q); [exact W' | eassumption|]. apply (sb_usage _ _ _ _ Sb); assumption.
  - intros a b Ra C. destruct (reach_leads a Ra) as [k [Ka La]]. destruct (step_leads a b k La Ka C) as [l [Kb [E Lb]]].
    pose proof (edge_there p q f i void Sb k l La E) as E'. destruct (go_must _ _ _ _ G' _ _ E') as [u [v [U [V C']]]].
    rewrite (key_inj q ks' void g' G' _ _ _ (there_at a k Ka La) U), (key_inj q ks' void g' G' _ _ _ (there_at b l Kb Lb) V). exact C'.
  - intros a y Ra C. destruct (reach_leads a Ra) as [k [Ka La]]. pose proof (there_at a k Ka La) as Ta. destruct (go_wf _ _ _ _ G' _ y C) as [_ Ly]. destruct (nth_error ks' y) as [l'|] eqn:Ey; [|apply nth_error_None in Ey; lia].
    pose proof (go_may _ _ _ _ G' _ y _ l' C Ta Ey) as E'. apply (edge_settled q void (fun y => exists j, R j /\ y = f j)) in E'; [|exact St'|].
    + destruct (edge_back p q f i void Sb W k l' La E') as [l [E ->]]. destruct (go_must _ _ _ _ G _ _ E) as [u [v [U [V Cuv]]]]. rewrite (key_inj p ks void g G _ _ _ U Ka) in Cuv.
      exists v. split; [exact Cuv|]. exact (key_inj q ks' void g' G' _ _ _ Ey (there_at v l V (le_step _ _ _ _ _ La E))).
    + intros j Ej. destruct k as [j0|n|j0|s|s]; cbn [moved] in Ej; try discriminate Ej. injection Ej as <-. exists j0. split; [exact La | reflexivity].
Qed.
End View.

(** ** Reports *)
Lemma finish_plain demangle o p b g cs v m : wf_prog p -> fair o -> build demangle o p = Ret b -> finish demangle None b = Ret (g, cs) -> reported g v m ->
  exists g3 cs3, max_stack true (b_g b) = Ret (g3, cs3) /\ reported g3 v m.
Proof.
  intros W Fo E H Rp. pose proof (report_figures demangle o p b W Fo E None g cs H) as [_ [_ Nm]]. destruct (build_spec _ _ _ _ W Fo E) as [ks [void [_ [_ [_ [_ Ha]]]]]].
  unfold finish in H. destruct (bind_inv _ _ _ H) as [g1 [H1 H']]. clear H. injection H1 as <-. destruct (bind_inv _ _ _ H') as [[g3 cs3] [H2 H]]. clear H'. destruct (bind_inv _ _ _ H) as [g4 [H3 H4]]. clear H. injection H4 as <- <-.
  unfold shorten in H3. destruct (bind_inv _ _ _ H3) as [nds [H4 H5]]. injection H5 as <-. pose proof (shorten_nodes_max _ _ _ _ H4) as Sh. cbn [gnodes gedges] in *.
  assert (Mx : map nmax nds = map nmax (gnodes g3)) by (clear - Sh; induction Sh as [|a c l l' [S1 _] S IH]; [reflexivity | cbn; rewrite S1, IH; reflexivity]).
  destruct (b_info b) eqn:Bi.
  - exists g3, cs3. split; [exact H2|]. destruct Rp as [nd [K1 K2]]. cbn [gnodes] in K1. assert (K : nth_error (map nmax nds) v = Some (Some m)) by (rewrite nth_error_map, K1; cbn; f_equal; exact K2).
    rewrite Mx, nth_error_map in K. destruct (nth_error (gnodes g3) v) as [n3|] eqn:E3; [|discriminate K]. injection K as K. exists n3. split; [exact E3 | exact K].
  - exfalso. assert (Me : ~ measured p) by (intros X; apply Ha in X; discriminate X). destruct (Nm Me) as [_ Nn]. destruct Rp as [nd [K1 K2]]. rewrite (Nn nd (nth_error_In _ _ K1)) in K2. discriminate K2.
Qed.
(** The maxima of a report, with or without a start point, are those of the whole graph. *)
Lemma finish_any demangle o p b start g cs : wf_prog p -> fair o -> sizes_u64 p -> build demangle o p = Ret b -> finish demangle start b = Ret (g, cs) ->
  exists ks void ks0, pictures demangle p start ks void (gnodes g) (gedges g) /\ graph_of p ks0 void (b_g b) /\
  forall k i m, nth_error ks k = Some (KReal i) -> reported g k m -> i < length (pg_defined p) /\ exists g3 cs3, max_stack true (b_g b) = Ret (g3, cs3) /\ reported g3 i m.
Proof.
  intros W Fo Sz E H. pose proof (report_figures demangle o p b W Fo E start g cs H) as [_ [_ Nm]]. destruct (build_spec _ _ _ _ W Fo E) as [_ [_ [_ [_ [_ [_ Ha]]]]]].
  destruct (report_placed demangle o p b W Fo E start g cs H) as [ks [void [Pi [ks0 [g2 [G [F Pl]]]]]]]. exists ks, void, ks0. split; [exact Pi|]. split; [exact G|].
  unfold finish in H. rewrite F in H. cbn [bind] in H. destruct (bind_inv _ _ _ H) as [[g3 cs3] [H2 H']]. clear H. destruct (bind_inv _ _ _ H') as [g4 [H3 H4]]. clear H'. injection H4 as <- <-.
  unfold shorten in H3. destruct (bind_inv _ _ _ H3) as [nds [H4 H5]]. injection H5 as <-. pose proof (shorten_nodes_max _ _ _ _ H4) as Sh. cbn [gnodes gedges] in *.
  assert (Mx : map nmax nds = map nmax (gnodes g3)) by (clear - Sh; induction Sh as [|a c l l' [S1 _] S IH]; [reflexivity | cbn; rewrite S1, IH; reflexivity]).
  intros k i m Ek Rp. pose proof (graph_wf p ks0 void _ G) as Wf. pose proof (filtered_u64 demangle o None p b _ W Fo Sz E eq_refl) as Uu.
  split; [pose proof (pi_nodes _ _ _ _ _ _ _ Pi _ (nth_error_In _ _ Ek)) as I; inversion I; subst; assumption|].
  destruct (b_info b) eqn:Bi.
  - assert (R3 : reported g3 k m).
    { destruct Rp as [nd [K1 K2]]. cbn [gnodes] in K1. assert (K : nth_error (map nmax nds) k = Some (Some m)) by (rewrite nth_error_map, K1; cbn; f_equal; exact K2).
      rewrite Mx, nth_error_map in K. destruct (nth_error (gnodes g3) k) as [n3|] eqn:E3; [|discriminate K]. injection K as K. exists n3. split; [exact E3 | exact K]. }
    destruct Pl as [[-> ->]|[i0 [ids [R Kv]]]].
    + exists g3, cs3. split; [exact H2|]. rewrite (real_idx p ks0 void _ G _ _ Ek) in R3. exact R3.
    + destruct (max_stack_correct (b_g b) Wf) as [ga [ca [Ha1 _]]]. exists ga, ca. split; [exact Ha1|]. destruct (Kv _ _ Ek) as [v [V1 V2]].
      pose proof (proj1 (filter_keeps_maxima _ _ _ _ _ _ _ _ Wf Uu R Ha1 H2 k v m V1) R3) as Rv. rewrite (real_idx p ks0 void _ G _ _ V2) in Rv. exact Rv.
  - exfalso. assert (Me : ~ measured p) by (intros X; apply Ha in X; discriminate X). destruct (Nm Me) as [_ Nn]. destruct Rp as [nd [K1 K2]]. cbn [gnodes] in K1. rewrite (Nn nd (nth_error_In _ _ K1)) in K2. discriminate K2.
Qed.
(** One void type: the graphs agree on it. *)
Lemma same_void p q void void' : one_void p -> (forall v, true_void q v <-> true_void p v) -> void_of p void -> void_of q void' -> void' = void.
Proof.
  intros Ov Ev V V'. unfold void_of in V, V'. destruct void as [v|], void' as [v'|].
  - f_equal. apply Ov; [apply Ev; exact V' | exact V].
  - exfalso. apply (V' v). apply Ev. exact V.
  - exfalso. apply (V v'). apply Ev. exact V'.
  - reflexivity.
Qed.
Lemma below_built demangle o o' p q b b' ks ks' void void' f i g3 c3 g3' c3' m m' : wf_prog p -> wf_prog q -> fair o -> fair o' -> sizes_u64 p -> sizes_u64 q -> one_void p ->
  build demangle o p = Ret b -> build demangle o' q = Ret b' -> graph_of p ks void (b_g b) -> graph_of q ks' void' (b_g b') ->
  settled p (reaches p i) -> settled q (fun y => exists j, reaches p i j /\ y = f j) -> same_below p q f (reaches p i) ->
  i < length (pg_defined p) -> f i < length (pg_defined q) ->
  max_stack true (b_g b) = Ret (g3, c3) -> max_stack true (b_g b') = Ret (g3', c3') -> reported g3 i m -> reported g3' (f i) m' -> m = m'.
Proof.
  intros W W' Fo Fo' Sz Sz' Ov E E' G G' St St' Sb Hi Hf X1 Y1 X2 Y2.
  assert (Vo : void_of p void) by exact (go_void _ _ _ _ G).
  assert (Ev : void' = void) by (apply (same_void p q); [exact Ov | exact (sb_void _ _ _ _ Sb) | exact Vo | exact (go_void _ _ _ _ G')]).
  subst void'.
  assert (RR : forall j, leads p void (KReal i) (KReal j) -> reaches p i j) by (intros j L; exists void; split; assumption).
  assert (Sb' : same_below p q f (fun j => leads p void (KReal i) (KReal j))) by (destruct Sb as [? ? ? ? ? ? ? ? ? ? ? ?]; constructor; eauto).
  assert (S1 : settled p (fun j => leads p void (KReal i) (KReal j))) by (intros j n L; exact (St j n (RR j L))).
  assert (S2 : settled q (fun y => exists j, leads p void (KReal i) (KReal j) /\ y = f j)) by (intros y n [j [L ->]]; apply St'; exists j; split; [exact (RR j L) | reflexivity]).
  pose proof (view_below p q f i void ks ks' (b_g b) (b_g b') W W' Sb' G G' S1 S2 Hi Hf) as Vw.
  assert (Th : there f ks ks' i = f i) by (eapply there_start; eassumption).
  rewrite <- Th in Y2. exact (view_decides _ _ _ i _ _ _ _ m m' (graph_wf p ks void _ G) (graph_wf q ks' void _ G') (filtered_u64 demangle o None p b _ W Fo Sz E eq_refl) (filtered_u64 demangle o' None q b' _ W' Fo' Sz' E' eq_refl) Vw X1 Y1 X2 Y2).
Qed.
Theorem below_decides demangle o o' p q f i g cs g' cs' m m' : wf_prog p -> wf_prog q -> fair o -> fair o' -> sizes_u64 p -> sizes_u64 q -> one_void p ->
  settled p (reaches p i) -> settled q (fun y => exists j, reaches p i j /\ y = f j) -> same_below p q f (reaches p i) ->
  i < length (pg_defined p) -> f i < length (pg_defined q) ->
  report demangle o None p = Ret (g, cs) -> report demangle o' None q = Ret (g', cs') -> reported g i m -> reported g' (f i) m' -> m = m'.
Proof.
  intros W W' Fo Fo' Sz Sz' Ov St St' Sb Hi Hf Rp Rp' M M'. unfold report in Rp, Rp'. destruct (bind_inv _ _ _ Rp) as [b [E H]], (bind_inv _ _ _ Rp') as [b' [E' H']]. clear Rp Rp'.
  destruct (build_spec _ _ _ _ W Fo E) as [ks [void [G _]]], (build_spec _ _ _ _ W' Fo' E') as [ks' [void' [G' _]]].
  destruct (finish_plain demangle o p b g cs i m W Fo E H M) as [g3 [c3 [X1 X2]]], (finish_plain demangle o' q b' g' cs' (f i) m' W' Fo' E' H' M') as [g3' [c3' [Y1 Y2]]].
  eapply (below_built demangle o o' p q b b' ks ks' void void' f i); eassumption.
Qed.
(** The same below any start points. *)
Theorem below_starts demangle o o' start start' p q g cs g' cs' : wf_prog p -> wf_prog q -> fair o -> fair o' -> sizes_u64 p -> sizes_u64 q -> one_void p ->
  report demangle o start p = Ret (g, cs) -> report demangle o' start' q = Ret (g', cs') ->
  exists ks void ks' void', pictures demangle p start ks void (gnodes g) (gedges g) /\ pictures demangle q start' ks' void' (gnodes g') (gedges g') /\
  forall f i k k' m m', settled p (reaches p i) -> settled q (fun y => exists j, reaches p i j /\ y = f j) -> same_below p q f (reaches p i) ->
  nth_error ks k = Some (KReal i) -> nth_error ks' k' = Some (KReal (f i)) -> reported g k m -> reported g' k' m' -> m = m'.
Proof.
  intros W W' Fo Fo' Sz Sz' Ov Rp Rp'. unfold report in Rp, Rp'. destruct (bind_inv _ _ _ Rp) as [b [E H]], (bind_inv _ _ _ Rp') as [b' [E' H']]. clear Rp Rp'.
  destruct (finish_any demangle o p b start g cs W Fo Sz E H) as [ks [void [ks0 [Pi [G X]]]]], (finish_any demangle o' q b' start' g' cs' W' Fo' Sz' E' H') as [ks' [void' [ks0' [Pi' [G' X']]]]].
  exists ks, void, ks', void'. split; [exact Pi|]. split; [exact Pi'|]. intros f i k k' m m' St St' Sb K K' M M'.
  destruct (X k i m K M) as [Hi [g3 [c3 [X1 X2]]]], (X' k' (f i) m' K' M') as [Hf [g3' [c3' [Y1 Y2]]]].
  eapply (below_built demangle o o' p q b b' ks0 ks0' void void' f i); eassumption.
Qed.

(** ** Changing functions in place *)
Lemma first_as {A} (P Q : A -> Prop) l x : (forall y, P y <-> Q y) -> first P l x -> first Q l x.
Proof. intros H [a [b [E [Px N]]]]. exists a, b. split; [exact E|]. split; [apply H; exact Px|]. intros y I Qy. apply (N y I). apply H. exact Qy. Qed.
Section Rewritten.
Variables (p q : prog) (R : nat -> Prop).
Hypothesis (Rw : rewritten p q R).
Lemma rw_names_at j ns : names_at q j ns <-> names_at p j ns.
Proof. unfold names_at. rewrite (rw_defined _ _ _ Rw). reflexivity. Qed.
Lemma rw_live n j : live q n j <-> live p n j.
Proof. unfold live. split; intros [ns [N I]]; exists ns; (split; [apply rw_names_at; exact N | exact I]). Qed.
Lemma rw_chosen j n : chosen q j n <-> chosen p j n.
Proof.
  unfold chosen. split; intros [ns [N [F|[N2 F]]]]; exists ns; (split; [apply rw_names_at; exact N|]).
  - left. apply (first_as (sized q)); [apply (rw_sized _ _ _ Rw) | exact F].
  - right. split; [|exact F]. intros m I S. apply (N2 m I). apply (rw_sized _ _ _ Rw). exact S.
  - left. apply (first_as (sized p)); [intros y; symmetry; apply (rw_sized _ _ _ Rw) | exact F].
  - right. split; [|exact F]. intros m I S. apply (N2 m I). apply (rw_sized _ _ _ Rw). exact S.
Qed.
Lemma rw_has_def n : has_def q n <-> has_def p n.
Proof. unfold has_def. split; intros [d I]; [destruct (proj1 (rw_types _ _ _ Rw n (d_sig d))) as [d' [I' _]] | destruct (proj2 (rw_types _ _ _ Rw n (d_sig d))) as [d' [I' _]]]; eauto. Qed.
Lemma rw_has_decl n : has_decl q n <-> has_decl p n.
Proof. unfold has_decl. rewrite (rw_declares _ _ _ Rw). reflexivity. Qed.
Lemma rw_typed_def j s : typed_by_def q j s <-> typed_by_def p j s.
Proof.
  split; intros [ns [n [d [N [F [I E]]]]]].
  - destruct (proj1 (rw_types _ _ _ Rw n s)) as [d' [I' E']]; [exists d; split; [exact I | symmetry; exact E]|]. exists ns, n, d'. split; [apply rw_names_at; exact N|]. split; [apply (first_as (has_def q)); [apply rw_has_def | exact F]|]. split; [exact I' | symmetry; exact E'].
  - destruct (proj2 (rw_types _ _ _ Rw n s)) as [d' [I' E']]; [exists d; split; [exact I | symmetry; exact E]|]. exists ns, n, d'. split; [apply rw_names_at; exact N|]. split; [apply (first_as (has_def p)); [intros y; symmetry; apply rw_has_def | exact F]|]. split; [exact I' | symmetry; exact E'].
Qed.
Lemma rw_typed_decl j s : typed_by_decl q j s <-> typed_by_decl p j s.
Proof.
  split; intros [ns [n [N [D [F I]]]]]; exists ns, n; (split; [apply rw_names_at; exact N|]); (split; [intros m Im X; apply (D m Im); apply rw_has_def; exact X|]).
  - split; [apply (first_as (has_decl q)); [apply rw_has_decl | exact F] | rewrite <- (rw_declares _ _ _ Rw); exact I].
  - split; [apply (first_as (has_decl p)); [intros y; symmetry; apply rw_has_decl | exact F] | rewrite (rw_declares _ _ _ Rw); exact I].
Qed.
Lemma rw_typed j s : typed q j s <-> typed p j s.
Proof. unfold typed. rewrite rw_typed_def, rw_typed_decl. reflexivity. Qed.
Lemma rw_untyped : untyped q <-> untyped p.
Proof.
  split; intros [j [ns [n [N [C [D O]]]]]]; exists j, ns, n; (split; [apply rw_names_at; exact N|]); (split; [apply rw_chosen; exact C|]); (split; [|exact O]);
    intros m I; destruct (D m I) as [D1 D2]; (split; intros X; [apply D1; apply rw_has_def; exact X | apply D2; apply rw_has_decl; exact X]).
Qed.
Lemma rw_void v : true_void q v <-> true_void p v.
Proof.
  assert (V : forall r, void_candidate q r <-> void_candidate p r) by (intros r; split; intros [j T]; exists j; apply rw_typed; exact T).
  unfold true_void. rewrite (V v), (V (lit "fmt::Void")).
  assert (X : (forall r, ~ void_candidate q (lit "core::fmt::Void" ++ r)) <-> (forall r, ~ void_candidate p (lit "core::fmt::Void" ++ r))) by (split; intros H r Y; apply (H r); apply V; exact Y).
  assert (Y : (forall w, void_candidate q w -> w = v) <-> (forall w, void_candidate p w -> w = v)) by (split; intros H w Z; apply H; apply V; exact Z).
  rewrite X, Y. reflexivity.
Qed.
Lemma rw_llvm j k : R j -> llvm_size p j k -> llvm_size q j k.
Proof.
  intros Rj [n [C S]]. exists n. split; [apply rw_chosen; exact C|]. destruct k as [k|]; [apply (rw_sizes _ _ _ Rw j n k Rj (chosen_live p _ _ C)); exact S | intros X; apply S; apply (rw_sized _ _ _ Rw); exact X].
Qed.
Lemma rw_asm j : R j -> (has_asm q j <-> has_asm p j).
Proof. intros Rj. unfold has_asm. split; intros [c B]; exists c; apply (rw_bodies _ _ _ Rw j _ Rj); exact B. Qed.
Lemma rw_outlined j : outlined q j <-> outlined p j.
Proof. unfold outlined. split; intros [n [C O]]; exists n; (split; [apply rw_chosen; exact C | exact O]). Qed.
Lemma rw_usage j l : R j -> usage p j l -> usage q j l.
Proof.
  intros Rj U. destruct U.
  - apply us_llvm; [rewrite (rw_target _ _ _ Rw), (rw_text _ _ _ Rw); exact H | exact (rw_llvm _ _ Rj H0)].
  - apply us_none; [rewrite (rw_target _ _ _ Rw), (rw_text _ _ _ Rw); exact H | exact (rw_llvm _ _ Rj H0)].
  - eapply us_agree; [apply (rw_code _ _ _ Rw j _ _ _ Rj); eassumption | exact (rw_llvm _ _ Rj H0) | assumption].
  - eapply us_asm; [apply (rw_code _ _ _ Rw j _ _ _ Rj); eassumption | exact (rw_llvm _ _ Rj H0) | assumption | assumption | apply rw_asm; assumption].
  - eapply us_outlined; [apply (rw_code _ _ _ Rw j _ _ _ Rj); eassumption | exact (rw_llvm _ _ Rj H0) | assumption | assumption | rewrite rw_asm; assumption | apply rw_outlined; assumption].
  - eapply us_outlined_kept; [apply (rw_code _ _ _ Rw j _ _ _ Rj); eassumption | exact (rw_llvm _ _ Rj H0) | eassumption | assumption | assumption | rewrite rw_asm; assumption | apply rw_outlined; assumption].
  - eapply us_no_total; [apply (rw_code _ _ _ Rw j _ _ _ Rj); eassumption | exact (rw_llvm _ _ Rj H0) | assumption].
  - eapply us_ours; [apply (rw_code _ _ _ Rw j _ _ _ Rj); eassumption | exact (rw_llvm _ _ Rj H0) | assumption].
  - eapply us_untouched; [apply (rw_code _ _ _ Rw j _ _ _ Rj); eassumption | exact (rw_llvm _ _ Rj H0) | assumption | assumption].
  - eapply us_unknown; [apply (rw_code _ _ _ Rw j _ _ _ Rj); eassumption | exact (rw_llvm _ _ Rj H0) | assumption | assumption].
Qed.
Lemma rw_at j a : at_address q j a <-> at_address p j a.
Proof. unfold at_address. rewrite (rw_defined _ _ _ Rw). reflexivity. Qed.
Lemma rw_jumps j k : R j -> (jumps q j k <-> jumps p j k).
Proof.
  intros Rj. split; intros [addr [size [a [A H]]]]; exists addr, size, a; (split; [apply (rw_code _ _ _ Rw j _ _ _ Rj); exact A|]);
    (destruct H as [[off [I X]]|[off [I [X Y]]]]; [left; exists off; split; [exact I | apply rw_at; exact X] | right; exists off; split; [exact I|]; split; [apply rw_at; exact X | exact Y]]).
Qed.
Lemma rw_blind j : R j -> (blind q j <-> blind p j).
Proof.
  intros Rj. split; intros [[addr [size [a [A I]]]] N]; (split; [exists addr, size, a; split; [apply (rw_code _ _ _ Rw j _ _ _ Rj); exact A | exact I]|]); intros n d D L.
  - destruct (proj2 (rw_has_def n) (ex_intro _ d D)) as [d' D']. apply (N n d' D'). apply rw_live. exact L.
  - destruct (proj1 (rw_has_def n) (ex_intro _ d D)) as [d' D']. apply (N n d' D'). apply rw_live. exact L.
Qed.
Lemma rewritten_below : same_below p q (fun j => j) R.
Proof.
  assert (Id : forall (P Q : nat -> Prop) y, (P y <-> Q y) -> (P y <-> exists k, Q k /\ y = k)) by (intros P Q y H; rewrite H; split; [intros X; exists y; split; [exact X | reflexivity] | intros [k [X ->]]; exact X]).
  constructor.
  - exact (rw_target _ _ _ Rw).
  - intros a b _ _ E. exact E.
  - intros j l Rj U. exact (rw_usage j l Rj U).
  - intros j st Rj. exact (rw_bodies _ _ _ Rw j st Rj).
  - intros j y Rj. apply Id. exact (rw_jumps j y Rj).
  - intros j Rj. exact (rw_blind j Rj).
  - intros j n y _ _. apply Id. exact (rw_live n y).
  - intros j st n y _ _ _. apply (Id (fun y => chosen q y n) (fun y => chosen p y n)). exact (rw_chosen y n).
  - intros j s s' y _ _ _. apply (Id (fun y => typed q y s) (fun y => typed p y s)). exact (rw_typed y s).
  - intros j v s' r y _ _ _. apply (Id (fun y => typed_by_def q y (fmt_sig r)) (fun y => typed_by_def p y (fmt_sig r))). exact (rw_typed_def y (fmt_sig r)).
  - exact rw_untyped.
  - exact rw_void.
Qed.
End Rewritten.
Lemma rewritten_decides demangle o o' p q i g cs g' cs' m m' : wf_prog p -> wf_prog q -> fair o -> fair o' -> sizes_u64 p -> sizes_u64 q -> one_void p ->
  settled p (reaches p i) -> settled q (reaches p i) -> rewritten p q (reaches p i) -> i < length (pg_defined p) ->
  report demangle o None p = Ret (g, cs) -> report demangle o' None q = Ret (g', cs') -> reported g i m -> reported g' i m' -> m = m'.
Proof.
  intros W W' Fo Fo' Sz Sz' Ov St St' Rw Hi. apply (below_decides demangle o o' p q (fun j => j) i); try assumption.
  - intros y n [j [Rj ->]]. exact (St' j n Rj).
  - exact (rewritten_below p q _ Rw).
  - rewrite (rw_defined _ _ _ Rw). exact Hi.
Qed.
