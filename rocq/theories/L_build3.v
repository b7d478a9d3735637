(** The pass over the LLVM IR. *)
From Coq Require FinFun.
From Verif Require Import M_base M_stack M_graph M_analysis M_filter M_names M_thumb M_ty M_parse M_build S_names S_build L_base L_names L_ir2 L_build1 L_build2.

(** * Callees *)
Lemma starts_with_inv pre s : starts_with pre s = true -> exists r, s = pre ++ r.
Proof.
  revert s. induction pre as [|c pre IH]; intros s H; [exists s; reflexivity|]. destruct s as [|d s]; [discriminate|].
  cbn [starts_with] in H. apply andb_prop in H. destruct H as [H1 H2]. apply Ascii.eqb_eq in H1. subst d. destruct (IH s H2) as [r ->]. exists r. reflexivity.
Qed.
Lemma starts_intrinsic pre f : (exists q, pre = lit "llvm." ++ q) -> starts_with pre f = true -> intrinsic f.
Proof. intros [q ->] H. apply starts_with_inv in H. destruct H as [r ->]. exists (q ++ r). rewrite app_assoc. reflexivity. Qed.
Ltac intr := eexists; reflexivity.
Lemma classify_intrinsic t f : classify t f <> CFunction -> intrinsic f.
Proof.
  unfold classify. repeat match goal with |- context [if ?b then _ else _] => destruct b eqn:?H end; intros NE;
    repeat match goal with H : (_ && _)%bool = true |- _ => apply andb_prop in H; destruct H | H : (_ || _)%bool = true |- _ => apply orb_prop in H; destruct H end;
    try (match goal with H : starts_with _ _ = true |- _ => apply (starts_intrinsic _ _ ltac:(intr) H) end);
    try (match goal with H : str_eqb _ _ = true |- _ => apply str_eqb_eq in H; subst; intr end).
  - apply smem_In in H. cbn [In map] in H. repeat destruct H as [<- | H]; try intr. destruct H.
  - apply existsb_exists in H4. destruct H4 as [pre [I S]]. apply starts_with_inv in S. destruct S as [r ->]. cbn [In map lowered_prefixes] in I.
    repeat destruct I as [<- | I]; try intr. destruct I.
  - exfalso. exact (NE eq_refl).
Qed.
Lemma classify_function t f : classify t f = CFunction -> ~ intrinsic f.
Proof.
  intros H [r ->]. unfold classify in H.
  repeat match type of H with context [if ?b then _ else _] => destruct b eqn:?E end; try discriminate.
Qed.
Lemma lowers_names f n : lowers f n -> exists names, (forall m, lowers f m <-> In m names) /\ In n names /\ classify false f = CMem names.
Proof.
  intros H. destruct H as [r n H | r n H | r n H]; [exists memcpy_names | exists memset_names | exists memset_names];
    (split; [|split; [exact H | reflexivity]]).
  - intros m. split; [|intros K; constructor; exact K]. intros K. inversion K; subst; assumption.
  - intros m. split; [|intros K; constructor; exact K]. intros K. inversion K; subst; assumption.
  - intros m. split; [|intros K; apply lo_memmove; exact K]. intros K. inversion K; subst; assumption.
Qed.
Lemma classify_mem t f names : classify t f = CMem names -> t = false /\ forall n, lowers f n <-> In n names.
Proof.
  intros H. destruct t.
  - exfalso. unfold classify in H.
    repeat match type of H with context [if ?b then _ else _] => destruct b eqn:?E end; try discriminate;
      cbn [andb] in *;
      match goal with H1 : starts_with (lit "llvm.") f = false |- _ => revert H1 end.
    + assert (I : intrinsic f) by (apply (starts_intrinsic (lit "llvm.memcpy.") f); [intr | assumption]). destruct I as [r ->]. discriminate.
    + assert (I : intrinsic f) by (apply orb_prop in E3; destruct E3 as [E3 | E3]; [apply (starts_intrinsic (lit "llvm.memset.") f) | apply (starts_intrinsic (lit "llvm.memmove.") f)]; (intr || assumption)). destruct I as [r ->]. discriminate.
  - split; [reflexivity|]. assert (K : exists n, lowers f n).
    { unfold classify in H. repeat match type of H with context [if ?b then _ else _] => destruct b eqn:?E end; try discriminate.
      - apply starts_with_inv in E2. destruct E2 as [r ->]. exists (lit "memcpy"). constructor. left. reflexivity.
      - apply orb_prop in E3. destruct E3 as [E3 | E3]; apply starts_with_inv in E3; destruct E3 as [r ->]; exists (lit "memset"); [apply lo_memset | apply lo_memmove]; left; reflexivity. }
    destruct K as [n K]. destruct (lowers_names f n K) as [ns [K1 [_ K2]]]. rewrite H in K2. injection K2 as ->. exact K1.
Qed.
Lemma classify_skip f n : lowers f n -> classify false f <> CSkip.
Proof. intros H. destruct (lowers_names f n H) as [ns [_ [_ ->]]]. discriminate. Qed.
Lemma lowers_intrinsic f n : lowers f n -> intrinsic f.
Proof. intros H. apply (classify_intrinsic false). destruct (lowers_names f n H) as [ns [_ [_ ->]]]. discriminate. Qed.

Lemma pmem_In e l : pmem e l = true <-> In e l.
Proof.
  unfold pmem. rewrite existsb_exists. split.
  - intros [[a b] [H1 H2]]. apply andb_prop in H2. destruct H2 as [H2 H3]. apply Nat.eqb_eq in H2. apply Nat.eqb_eq in H3. destruct e. cbn in *. subst. exact H1.
  - intros H. exists e. split; [exact H|]. rewrite !Nat.eqb_refl. reflexivity.
Qed.

(** * The pass *)
Section IR.
Variables (demangle : str -> str) (p : prog) (nd0 : nodes).
Hypothesis (W : wf_prog p) (R : RN demangle p (pg_defined p) nd0).

(** Events: statement [st] of function [i] was executed. *)
Definition event : Type := (nat * stmt).
Definition createdE (evs : list event) (n : str) : Prop :=
  (exists i, In (i, DirectCall n) evs /\ ~ intrinsic n /\ n <> memcmp /\ forall j, ~ live p n j) \/
  (exists i, In (i, BitcastCall (Some n)) evs /\ forall j, ~ chosen p j n).
Inductive irE (evs : list event) (known : str -> Prop) : key -> key -> Prop :=
| ie_direct i f j : In (i, DirectCall f) evs -> ~ intrinsic f -> live p f j -> (f = memcmp -> chosen p j f \/ known f) ->
    irE evs known (KReal i) (KReal j)
| ie_extern i f : In (i, DirectCall f) evs -> ~ intrinsic f -> (forall j, ~ live p f j) -> (f = memcmp -> known f) ->
    irE evs known (KReal i) (KSym f)
| ie_cast i f j : In (i, BitcastCall (Some f)) evs -> chosen p j f -> irE evs known (KReal i) (KReal j)
| ie_cast_extern i f : In (i, BitcastCall (Some f)) evs -> (forall j, ~ chosen p j f) -> irE evs known (KReal i) (KSym f)
| ie_mem i f n j : is_thumb (pg_target p) = false -> In (i, DirectCall f) evs -> lowers f n -> chosen p j n ->
    irE evs known (KReal i) (KReal j)
| ie_mem_extern i f n : is_thumb (pg_target p) = false -> In (i, DirectCall f) evs -> lowers f n -> (forall j, ~ chosen p j n) -> known n ->
    irE evs known (KReal i) (KSym n).

Lemma irE_app a b known k l : irE (a ++ b) known k l <-> irE a known k l \/ irE b known k l.
Proof.
  split.
  - intros H. destruct H as [i f j H | i f H | i f j H | i f H | i f n j ? H | i f n ? H]; apply in_app_or in H; destruct H as [H | H];
      [left | right | left | right | left | right | left | right | left | right | left | right];
      [eapply ie_direct | eapply ie_direct | eapply ie_extern | eapply ie_extern | eapply ie_cast | eapply ie_cast
      | eapply ie_cast_extern | eapply ie_cast_extern | eapply ie_mem | eapply ie_mem | eapply ie_mem_extern | eapply ie_mem_extern]; eassumption.
  - intros [H | H]; destruct H as [i f j H | i f H | i f j H | i f H | i f n j ? H | i f n ? H];
      [eapply ie_direct | eapply ie_extern | eapply ie_cast | eapply ie_cast_extern | eapply ie_mem | eapply ie_mem_extern
      |eapply ie_direct | eapply ie_extern | eapply ie_cast | eapply ie_cast_extern | eapply ie_mem | eapply ie_mem_extern ];
      try eassumption; apply in_or_app; (left; eassumption) || (right; eassumption).
Qed.
Lemma irE_mono evs (k1 k2 : str -> Prop) k l : (forall n, k1 n -> k2 n) -> irE evs k1 k l -> irE evs k2 k l.
Proof.
  intros M H. destruct H as [i f j H | i f H | i f j H | i f H | i f n j ? H | i f n ? H];
    [eapply ie_direct | eapply ie_extern | eapply ie_cast | eapply ie_cast_extern | eapply ie_mem | eapply ie_mem_extern]; try eassumption; auto.
  intros E. destruct (H2 E) as [K | K]; [left; exact K | right; exact (M _ K)].
Qed.
Lemma createdE_app a b n : createdE (a ++ b) n <-> createdE a n \/ createdE b n.
Proof.
  unfold createdE. split.
  - intros [[i [H K]] | [i [H K]]]; apply in_app_or in H; destruct H as [H | H].
    + left. left. exists i. split; assumption.
    + right. left. exists i. split; assumption.
    + left. right. exists i. split; assumption.
    + right. right. exists i. split; assumption.
  - intros [[[i [H K]] | [i [H K]]] | [[i [H K]] | [i [H K]]]].
    + left. exists i. split; [apply in_or_app; left; exact H | exact K].
    + right. exists i. split; [apply in_or_app; left; exact H | exact K].
    + left. exists i. split; [apply in_or_app; right; exact H | exact K].
    + right. exists i. split; [apply in_or_app; right; exact H | exact K].
Qed.

Lemma chosen_live j n : chosen p j n -> live p n j.
Proof. intros [ns [H K]]. exists ns. split; [exact H | exact (choose_In _ _ _ K)]. Qed.
Lemma live_lt f j : live p f j -> j < length (pg_defined p).
Proof. intros H. rewrite <- (upto_all p) in H at 1. exact (at_lt _ _ _ _ H). Qed.
Lemma live_inj f i j : live p f i -> live p f j -> i = j.
Proof.
  intros H1 H2. apply (at_inj p (pg_defined p) i j f (In f) (In f) (wf_names _ W) (fun _ h => h) (fun _ h => h)); rewrite upto_all; assumption.
Qed.
Lemma chosen_inj c i j : chosen p i c -> chosen p j c -> i = j.
Proof. intros H1 H2. exact (live_inj c i j (chosen_live _ _ H1) (chosen_live _ _ H2)). Qed.
Lemma chosen_fun i a b : chosen p i a -> chosen p i b -> a = b.
Proof. intros [ns [H1 C1]] [ns' [H2 C2]]. rewrite (names_at_unique _ _ _ _ H2 H1) in C2. exact (choose_unique _ _ _ _ C1 C2). Qed.
Lemma created_unchosen evs n : createdE evs n -> forall j, ~ chosen p j n.
Proof. intros [[i [_ [_ [_ H]]]] | [i [_ H]]] j K; [exact (H j (chosen_live _ _ K)) | exact (H j K)]. Qed.
Lemma live_chosen f j : live p f j -> exists c, chosen p j c.
Proof.
  intros [ns [H1 H2]]. destruct (choose_exists p ns) as [c C]; [intros ->; exact H2|]. exists c, ns. split; assumption.
Qed.

(** Nodes. *)
Definition show0 (k : key) (nd : node) : Prop :=
  match k with
  | KReal i => exists c, chosen p i c /\ nd = new_node c (sget (pg_sizes p) c) false
  | KSym n => nd = new_node n None false
  | _ => False
  end.
Record NODES (evs : list event) (e : edgest) (ks : list key) : Prop := {
  nd_show : Forall2 show0 ks (gnodes (e_g e));
  nd_real : forall i, i < length (pg_defined p) -> nth_error ks i = Some (KReal i);
  nd_keys : NoDup ks;
  nd_in : forall k, In k ks <-> (exists i, i < length (pg_defined p) /\ k = KReal i) \/ (exists n, createdE evs n /\ k = KSym n);
  nd_idx : forall n u, sget (e_indices e) n = Some u <->
             (exists j, chosen p j n /\ nth_error ks u = Some (KReal j)) \/ nth_error ks u = Some (KSym n)
}.
Lemma nd_idx_None evs e ks n : NODES evs e ks -> sget (e_indices e) n = None <-> (forall j, ~ chosen p j n) /\ ~ createdE evs n.
Proof.
  intros H. split.
  - intros E. split.
    + intros j C. assert (K : sget (e_indices e) n = Some j).
      { apply (nd_idx _ _ _ H). left. exists j. split; [exact C|]. apply (nd_real _ _ _ H). exact (live_lt _ _ (chosen_live _ _ C)). }
      congruence.
    + intros C. assert (K : In (KSym n) ks) by (apply (nd_in _ _ _ H); right; exists n; split; [exact C | reflexivity]).
      apply In_nth_error in K. destruct K as [u K]. assert (Y : sget (e_indices e) n = Some u) by (apply (nd_idx _ _ _ H); right; exact K). congruence.
  - intros [H1 H2]. destruct (sget (e_indices e) n) as [u|] eqn:E; [|reflexivity]. exfalso. apply (nd_idx _ _ _ H) in E. destruct E as [[j [C _]] | E].
    + exact (H1 j C).
    + apply nth_error_In in E. apply (nd_in _ _ _ H) in E. destruct E as [[i [_ E]] | [m [C E]]]; [discriminate E|]. injection E as <-. exact (H2 C).
Qed.
(** Looking up a name: its function, or the node of a symbol outside. *)
Lemma lookup evs e ks n u : NODES evs e ks -> sget (e_indices e) n = Some u ->
  (exists j, chosen p j n /\ nth_error ks u = Some (KReal j)) \/
  ((forall j, ~ chosen p j n) /\ createdE evs n /\ nth_error ks u = Some (KSym n)).
Proof.
  intros H E. apply (nd_idx _ _ _ H) in E. destruct E as [E | E]; [left; exact E|]. right.
  pose proof (nth_error_In _ _ E) as K. apply (nd_in _ _ _ H) in K. destruct K as [[i [_ K]] | [m [C K]]]; [discriminate K|]. injection K as <-.
  split; [exact (created_unchosen _ _ C) | split; [exact C | exact E]].
Qed.

Lemma nodes_same evs ev e e' ks : NODES evs e ks -> (forall n, createdE [ev] n -> createdE evs n) ->
  gnodes (e_g e') = gnodes (e_g e) -> e_indices e' = e_indices e -> NODES (evs ++ [ev]) e' ks.
Proof.
  intros H C Eg Ei. constructor.
  - rewrite Eg. exact (nd_show _ _ _ H).
  - exact (nd_real _ _ _ H).
  - exact (nd_keys _ _ _ H).
  - intros k. rewrite (nd_in _ _ _ H). split; (intros [K | [n [K1 K2]]]; [left; exact K|]); right; exists n; (split; [|exact K2]).
    + apply createdE_app. left. exact K1.
    + apply createdE_app in K1. destruct K1 as [K1 | K1]; [exact K1 | exact (C _ K1)].
  - intros n u. rewrite Ei. apply (nd_idx _ _ _ H).
Qed.
Lemma Forall2_snoc {A B} (P : A -> B -> Prop) l1 l2 a b : Forall2 P l1 l2 -> P a b -> Forall2 P (l1 ++ [a]) (l2 ++ [b]).
Proof. intros H K. apply Forall2_app; [exact H | constructor; [exact K | constructor]]. Qed.
Lemma Forall2_len {A B} (P : A -> B -> Prop) l1 l2 : Forall2 P l1 l2 -> length l1 = length l2.
Proof. intros H. induction H; cbn [length]; congruence. Qed.
Lemma nodes_unknown evs ev e ks n : NODES evs e ks -> sget (e_indices e) n = None -> createdE [ev] n -> (forall m, createdE [ev] m -> m = n) ->
  NODES (evs ++ [ev]) (fst (add_unknown n e)) (ks ++ [KSym n]) /\ snd (add_unknown n e) = length ks.
Proof.
  intros H E C1 C2. apply (nd_idx_None _ _ _ _ H) in E. destruct E as [E1 E2]. pose proof (Forall2_len _ _ _ (nd_show _ _ _ H)) as L. split; [|symmetry; exact L].
  constructor; cbn [add_unknown add_node fst e_g gnodes e_indices].
  - apply Forall2_snoc; [exact (nd_show _ _ _ H) | reflexivity].
  - intros i Hi. rewrite nth_error_app1; [exact (nd_real _ _ _ H i Hi)|]. apply nth_error_Some. rewrite (nd_real _ _ _ H i Hi). discriminate.
  - apply NoDup_snoc; [exact (nd_keys _ _ _ H)|]. intros K. apply (nd_in _ _ _ H) in K. destruct K as [[i [_ K]] | [m [C K]]]; [discriminate K|].
    injection K as <-. exact (E2 C).
  - intros k. rewrite in_app_iff, (nd_in _ _ _ H). cbn [In]. split.
    + intros [[K | [m [K1 K2]]] | [<- | []]]; [left; exact K | right; exists m; split; [apply createdE_app; left; exact K1 | exact K2]|].
      right. exists n. split; [apply createdE_app; right; exact C1 | reflexivity].
    + intros [K | [m [K1 K2]]]; [left; left; exact K|]. apply createdE_app in K1. destruct K1 as [K1 | K1]; [left; right; exists m; split; assumption|].
      right. left. rewrite K2, (C2 m K1). reflexivity.
  - intros m u. rewrite sget_sput, <- L. setoid_rewrite nth_snoc. destruct (str_eqb_spec n m) as [<- | N].
    + split.
      * intros Y. injection Y as <-. right. right. split; reflexivity.
      * intros [[j [C _]] | [K | [-> _]]]; [exfalso; exact (E1 j C) | | reflexivity]. exfalso. apply nth_error_In in K. apply (nd_in _ _ _ H) in K.
        destruct K as [[i [_ K]] | [m [C K]]]; [discriminate K|]. injection K as <-. exact (E2 C).
    + rewrite (nd_idx _ _ _ H). split.
      * intros [[j [C K]] | K]; [left; exists j; split; [exact C | left; exact K] | right; left; exact K].
      * intros [[j [C [K | [_ K]]]] | [K | [_ K]]]; [left; exists j; split; assumption | discriminate K | right; exact K | injection K as K; congruence].
Qed.

(** Edges. *)
Definition nocast (evs : list event) : Prop := forall i f, ~ In (i, BitcastCall f) evs.
Record EDGES (evs : list event) (e : edgest) (ks : list key) : Prop := {
  es_seen : forall x, In x (e_seen e) -> In x (gedges (e_g e));
  es_wf : forall u v, In (u, v) (gedges (e_g e)) -> u < length ks /\ v < length ks;
  es_must : forall k l, irE evs (fun _ => False) k l -> exists u v, nth_error ks u = Some k /\ nth_error ks v = Some l /\ In (u, v) (gedges (e_g e));
  es_may : forall u v, In (u, v) (gedges (e_g e)) -> exists k l, nth_error ks u = Some k /\ nth_error ks v = Some l /\ irE evs (createdE evs) k l;
  es_nodup : nocast evs -> NoDup (gedges (e_g e)) /\ forall x, In x (gedges (e_g e)) -> In x (e_seen e)
}.
Lemma nth_app_l {A} (l m : list A) i x : nth_error l i = Some x -> nth_error (l ++ m) i = Some x.
Proof. intros H. rewrite nth_error_app1; [exact H|]. apply nth_error_Some. rewrite H. discriminate. Qed.
Lemma edges_step evs ev e e' ks extra : EDGES evs e ks ->
  (forall x, In x (e_seen e') -> In x (gedges (e_g e'))) ->
  (forall x, In x (gedges (e_g e)) -> In x (gedges (e_g e'))) ->
  (forall u v, In (u, v) (gedges (e_g e')) -> In (u, v) (gedges (e_g e)) \/
     exists k l, nth_error (ks ++ extra) u = Some k /\ nth_error (ks ++ extra) v = Some l /\ irE [ev] (createdE (evs ++ [ev])) k l) ->
  (forall k l, irE [ev] (fun _ => False) k l -> exists u v, nth_error (ks ++ extra) u = Some k /\ nth_error (ks ++ extra) v = Some l /\ In (u, v) (gedges (e_g e'))) ->
  (nocast (evs ++ [ev]) -> NoDup (gedges (e_g e)) -> (forall x, In x (gedges (e_g e)) -> In x (e_seen e)) ->
     NoDup (gedges (e_g e')) /\ forall x, In x (gedges (e_g e')) -> In x (e_seen e')) ->
  EDGES (evs ++ [ev]) e' (ks ++ extra).
Proof.
  intros H S1 Sub May Must ND. constructor.
  - exact S1.
  - intros u v K. destruct (May u v K) as [K' | [k [l [E1 [E2 _]]]]].
    + destruct (es_wf _ _ _ H u v K') as [A B]. rewrite app_length. lia.
    + split; apply nth_error_Some; [rewrite E1 | rewrite E2]; discriminate.
  - intros k l K. apply irE_app in K. destruct K as [K | K]; [|exact (Must k l K)]. destruct (es_must _ _ _ H k l K) as [u [v [E1 [E2 E3]]]].
    exists u, v. split; [exact (nth_app_l _ _ _ _ E1) | split; [exact (nth_app_l _ _ _ _ E2) | exact (Sub _ E3)]].
  - intros u v K. destruct (May u v K) as [K' | [k [l [E1 [E2 E3]]]]].
    + destruct (es_may _ _ _ H u v K') as [k [l [E1 [E2 E3]]]]. exists k, l. split; [exact (nth_app_l _ _ _ _ E1) | split; [exact (nth_app_l _ _ _ _ E2)|]].
      apply irE_app. left. revert E3. apply irE_mono. intros n C. apply createdE_app. left. exact C.
    + exists k, l. split; [exact E1 | split; [exact E2|]]. apply irE_app. right. exact E3.
  - intros N. destruct (es_nodup _ _ _ H) as [A B]; [intros i f K; apply (N i f); apply in_or_app; left; exact K|]. exact (ND N A B).
Qed.

(** Signatures and assembly. *)
Definition calledE (evs : list event) (i : nat) (sg : fnsig) : Prop := exists s', In (i, IndirectCall s') evs /\ sig_loose sg s' = true.
Record OTHER (evs : list event) (e : edgest) : Prop := {
  ot_keys : map fst (e_indirects e) = map fst (n_indirects nd0);
  ot_ind : forall sg ind, In (sg, ind) (e_indirects e) ->
     (exists old, In (sg, old) (n_indirects nd0) /\ ic_callees ind = ic_callees old) /\
     (ic_called ind = true <-> exists i, calledE evs i sg) /\ (forall i, In i (ic_callers ind) <-> calledE evs i sg) /\ NoDup (ic_callers ind);
  ot_asm : forall c, In c (e_asm e) <-> exists i code, In (i, Asm code) evs /\ chosen p i c
}.
Lemma other_step evs i st e e' : OTHER evs e ->
  match st with
  | Asm _ => e_indirects e' = e_indirects e /\ exists c, chosen p i c /\ e_asm e' = sinsert (e_asm e) c
  | IndirectCall s => e_indirects e' = note_call (e_indirects e) s i /\ e_asm e' = e_asm e
  | _ => e_indirects e' = e_indirects e /\ e_asm e' = e_asm e
  end -> OTHER (evs ++ [(i, st)]) e'.
Proof.
  intros H K.
  assert (Hind : e_indirects e' = e_indirects e -> (forall s, st <> IndirectCall s) ->
     map fst (e_indirects e') = map fst (n_indirects nd0) /\
     forall sg ind, In (sg, ind) (e_indirects e') ->
     (exists old, In (sg, old) (n_indirects nd0) /\ ic_callees ind = ic_callees old) /\
     (ic_called ind = true <-> exists i', calledE (evs ++ [(i, st)]) i' sg) /\ (forall i', In i' (ic_callers ind) <-> calledE (evs ++ [(i, st)]) i' sg) /\ NoDup (ic_callers ind)).
  { intros -> N. split; [exact (ot_keys _ _ H)|]. intros sg ind I. destruct (ot_ind _ _ H sg ind I) as [A [B [C D]]].
    assert (Q : forall j, calledE (evs ++ [(i, st)]) j sg <-> calledE evs j sg).
    { intros j. unfold calledE. split; intros [s' [X Y]]; exists s'; (split; [|exact Y]).
      - apply in_app_or in X. destruct X as [X | [X | []]]; [exact X|]. injection X as _ X. exfalso. exact (N _ X).
      - apply in_or_app. left. exact X. }
    split; [exact A|]. split; [|split; [|exact D]].
    - rewrite B. split; intros [j X]; exists j; apply Q; exact X.
    - intros j. rewrite C. symmetry. apply Q. }
  assert (Hasm : e_asm e' = e_asm e -> (forall c, st <> Asm c) -> forall c, In c (e_asm e') <-> exists i' code, In (i', Asm code) (evs ++ [(i, st)]) /\ chosen p i' c).
  { intros -> N c. rewrite (ot_asm _ _ H). split; intros [j [code [X Y]]]; exists j, code; (split; [|exact Y]).
    - apply in_or_app. left. exact X.
    - apply in_app_or in X. destruct X as [X | [X | []]]; [exact X|]. injection X as _ X. exfalso. exact (N _ X). }
  destruct st as [code | f | f | s | | |];
    try (destruct K as [K1 K2]; destruct (Hind K1) as [A B]; [discriminate|]; constructor; [exact A | exact B | apply (Hasm K2); discriminate]).
  - destruct K as [K1 [c [C K2]]]. destruct (Hind K1) as [A B]; [discriminate|]. constructor; [exact A | exact B|].
    intros c'. rewrite K2, sinsert_In, (ot_asm _ _ H). split.
    + intros [[j [cd [X Y]]] | ->]; [exists j, cd; split; [apply in_or_app; left; exact X | exact Y]|].
      exists i, code. split; [apply in_or_app; right; left; reflexivity | exact C].
    + intros [j [cd [X Y]]]. apply in_app_or in X. destruct X as [X | [X | []]]; [left; exists j, cd; split; assumption|].
      injection X as <- _. right. exact (chosen_fun _ _ _ Y C).
  - destruct K as [K1 K2]. constructor; [| |apply (Hasm K2); discriminate].
    + rewrite K1. unfold note_call. rewrite map_map, <- (ot_keys _ _ H). apply map_ext. intros [a b]. cbn [fst]. destruct (sig_loose a s); reflexivity.
    + rewrite K1. intros sg ind I. unfold note_call in I. apply in_map_iff in I. destruct I as [[a b] [I1 I2]]. cbn [fst snd] in I1.
      destruct (ot_ind _ _ H a b I2) as [A [B [C D]]].
      assert (Q : forall j, calledE (evs ++ [(i, IndirectCall s)]) j a <-> calledE evs j a \/ (j = i /\ sig_loose a s = true)).
      { intros j. unfold calledE. split.
        - intros [s' [X Y]]. apply in_app_or in X. destruct X as [X | [X | []]]; [left; exists s'; split; assumption|]. injection X as <- <-. right. split; [reflexivity | exact Y].
        - intros [[s' [X Y]] | [-> Y]]; [exists s'; split; [apply in_or_app; left; exact X | exact Y]|].
          exists s. split; [apply in_or_app; right; left; reflexivity | exact Y]. }
      destruct (sig_loose a s) eqn:Es; injection I1 as <- <-; cbn [ic_called ic_callers ic_callees]; (split; [exact A|]); (split; [|split]).
      * split; [|reflexivity]. intros _. exists i. apply Q. right. split; reflexivity.
      * intros j. rewrite ninsert_In, Q, C. tauto.
      * apply ninsert_NoDup. exact D.
      * rewrite B. split; intros [j X]; exists j; apply Q in X || apply Q; [left; exact X|]. destruct X as [X | [_ X]]; [exact X | discriminate X].
      * intros j. rewrite Q, C. split; [tauto|]. intros [X | [_ X]]; [exact X | discriminate X].
      * exact D.
Qed.

Record INV (evs : list event) (e : edgest) (ks : list key) : Prop := { iv_nodes : NODES evs e ks; iv_edges : EDGES evs e ks; iv_other : OTHER evs e }.

Lemma add_once_spec caller callee g seen : (forall x, In x seen -> In x (gedges g)) ->
  let '(g', seen') := add_once caller callee (g, seen) in
  gnodes g' = gnodes g /\ (forall x, In x (gedges g') <-> In x (gedges g) \/ x = (caller, callee)) /\
  (forall x, In x seen' <-> In x seen \/ x = (caller, callee)) /\
  (NoDup (gedges g) -> (In (caller, callee) (gedges g) -> In (caller, callee) seen) -> NoDup (gedges g')).
Proof.
  intros S. unfold add_once. destruct (pmem (caller, callee) seen) eqn:E.
  - apply pmem_In in E. split; [reflexivity|]. split; [|split].
    + intros x. split; [tauto|]. intros [H | ->]; [exact H | exact (S _ E)].
    + intros x. split; [tauto|]. intros [H | ->]; [exact H | exact E].
    + intros H _. exact H.
  - cbn [add_edge gnodes gedges]. split; [reflexivity|]. split; [|split].
    + intros x. rewrite in_app_iff. cbn [In]. intuition.
    + intros x. rewrite in_app_iff. cbn [In]. intuition.
    + intros H K. apply NoDup_snoc; [exact H|]. intros I. apply K in I. apply pmem_In in I. congruence.
Qed.
Lemma call_once_spec caller callee e : (forall x, In x (e_seen e) -> In x (gedges (e_g e))) ->
  let e' := call_once caller callee e in
  gnodes (e_g e') = gnodes (e_g e) /\ e_indices e' = e_indices e /\ e_indirects e' = e_indirects e /\ e_asm e' = e_asm e /\ e_defined e' = e_defined e /\
  (forall x, In x (gedges (e_g e')) <-> In x (gedges (e_g e)) \/ x = (caller, callee)) /\
  (forall x, In x (e_seen e') <-> In x (e_seen e) \/ x = (caller, callee)) /\
  (NoDup (gedges (e_g e)) -> (In (caller, callee) (gedges (e_g e)) -> In (caller, callee) (e_seen e)) -> NoDup (gedges (e_g e'))).
Proof.
  intros S. unfold call_once. pose proof (add_once_spec caller callee (e_g e) (e_seen e) S) as H.
  destruct (add_once caller callee (e_g e, e_seen e)) as [g' seen']. destruct H as [A [B [C D]]]. cbn. repeat split; try assumption; try (apply B); try (apply C).
Qed.

(** Adding the edge of one event to a callee [v]. *)
Lemma edges_call evs ev e ks extra i v l e1 : EDGES evs e ks ->
  gedges (e_g e1) = gedges (e_g e) -> e_seen e1 = e_seen e ->
  nth_error (ks ++ extra) i = Some (KReal i) -> nth_error (ks ++ extra) v = Some l ->
  irE [ev] (createdE (evs ++ [ev])) (KReal i) l ->
  (forall k l', irE [ev] (fun _ => False) k l' -> k = KReal i /\ l' = l) ->
  EDGES (evs ++ [ev]) (call_once i v e1) (ks ++ extra).
Proof.
  intros H Eg Es Ei Ev I U. pose proof (call_once_spec i v e1) as K. rewrite Eg, Es in K. specialize (K (es_seen _ _ _ H)). cbv zeta in K.
  destruct K as [_ [_ [_ [_ [_ [KE [KS KN]]]]]]]. apply (edges_step _ _ _ _ _ _ H).
  - intros x. rewrite KE, KS. intros [X | X]; [left; exact (es_seen _ _ _ H x X) | right; exact X].
  - intros x X. apply KE. left. exact X.
  - intros u w X. apply KE in X. destruct X as [X | X]; [left; exact X|]. injection X as -> ->. right. exists (KReal i), l. repeat split; assumption.
  - intros k l' X. destruct (U k l' X) as [-> ->]. exists i, v. repeat split; try assumption. apply KE. right. reflexivity.
  - intros _ A B. split; [apply KN; [exact A | apply B]|]. intros x X. apply KE in X. apply KS. destruct X as [X | X]; [left; exact (B x X) | right; exact X].
Qed.
Lemma edges_quiet evs ev e e' ks : EDGES evs e ks -> e_g e' = e_g e -> e_seen e' = e_seen e -> (forall k l, ~ irE [ev] (fun _ => False) k l) ->
  EDGES (evs ++ [ev]) e' ks.
Proof.
  intros H Eg Es N. rewrite <- (app_nil_r ks). apply (edges_step _ _ _ _ _ _ H); rewrite ?Eg, ?Es.
  - exact (es_seen _ _ _ H).
  - intros x X. exact X.
  - intros u v X. left. exact X.
  - intros k l X. exfalso. exact (N k l X).
  - intros _ A B. split; assumption.
Qed.

(** The memory intrinsics. *)
Lemma mem_step evs i f names e ks : INV evs e ks -> i < length (pg_defined p) -> is_thumb (pg_target p) = false -> (forall n, lowers f n <-> In n names) -> intrinsic f ->
  INV (evs ++ [(i, DirectCall f)])
      (fold_left (fun s n => match sget (e_indices s) n with Some callee => call_once i callee s | None => s end) names e) ks.
Proof.
  intros H Hi T L IF.
  assert (G : forall names, let e' := fold_left (fun s n => match sget (e_indices s) n with Some callee => call_once i callee s | None => s end) names e in
    gnodes (e_g e') = gnodes (e_g e) /\ e_indices e' = e_indices e /\ e_indirects e' = e_indirects e /\ e_asm e' = e_asm e /\
    (forall x, In x (gedges (e_g e')) <-> In x (gedges (e_g e)) \/ exists n v, In n names /\ sget (e_indices e) n = Some v /\ x = (i, v)) /\
    (forall x, In x (e_seen e') -> In x (gedges (e_g e'))) /\
    (NoDup (gedges (e_g e)) -> (forall x, In x (gedges (e_g e)) -> In x (e_seen e)) -> NoDup (gedges (e_g e')) /\ (forall x, In x (gedges (e_g e')) -> In x (e_seen e')))).
  { clear L. intros ns. induction ns as [|n ns IH] using rev_ind; cbv zeta.
    - cbn [fold_left]. repeat split; try tauto; try (intros [X | [n [v [[] _]]]]; exact X). exact (es_seen _ _ _ (iv_edges _ _ _ H)).
    - rewrite fold_left_app. cbn [fold_left]. cbv zeta in IH. set (e1 := fold_left _ ns e) in *. destruct IH as [A [B [C [D [E [F G]]]]]]. rewrite B.
      destruct (sget (e_indices e) n) as [v|] eqn:En.
      + destruct (call_once_spec i v e1 F) as [A1 [B1 [C1 [D1 [_ [E1 [F1 G1]]]]]]]. repeat split; try congruence.
        * rewrite E1, E. intros [[X | [m [w [X Y]]]] | ->]; [left; exact X | right; exists m, w; split; [apply in_or_app; left; exact X | exact Y]|].
          right. exists n, v. split; [apply in_or_app; right; left; reflexivity | split; [exact En | reflexivity]].
        * rewrite E1, E. intros [X | [m [w [X Y]]]]; [left; left; exact X|]. apply in_app_or in X. destruct X as [X | [<- | []]].
          -- left. right. exists m, w. split; assumption.
          -- right. destruct Y as [Y1 Y2]. congruence.
        * intros x. rewrite F1, E1. intros [X | X]; [left; exact (F x X) | right; exact X].
        * destruct (G H0 H1) as [G2 G3]. apply G1; [exact G2 | apply G3].
        * destruct (G H0 H1) as [G2 G3]. intros x. rewrite F1, E1. intros [X | X]; [left; exact (G3 x X) | right; exact X].
      + repeat split; try assumption; try (apply G; assumption).
        * rewrite E. intros [X | [m [w [X Y]]]]; [left; exact X | right; exists m, w; split; [apply in_or_app; left; exact X | exact Y]].
        * rewrite E. intros [X | [m [w [X Y]]]]; [left; exact X|]. apply in_app_or in X. destruct X as [X | [<- | []]]; [right; exists m, w; split; assumption|].
          destruct Y as [Y1 Y2]. congruence. }
  specialize (G names). cbv zeta in G. set (e' := fold_left _ names e) in *. destruct G as [A [B [C [D [E [F G]]]]]].
  destruct H as [HN HE HO].
  assert (Q : forall n, ~ createdE [(i, DirectCall f)] n).
  { intros n [[j [[X | []] [N _]]] | [j [[X | []] _]]]; [|discriminate X]. injection X as <- <-. contradiction. }
  constructor.
  - apply (nodes_same evs _ e); [exact HN | intros n X; exfalso; exact (Q n X) | exact A | exact B].
  - rewrite <- (app_nil_r ks). apply (edges_step _ _ _ _ _ _ HE).
    + exact F.
    + intros x X. apply E. left. exact X.
    + intros u v X. apply E in X. destruct X as [X | [n [w [X1 [X2 X3]]]]]; [left; exact X|]. injection X3 as -> ->. right. rewrite app_nil_r.
      apply L in X1. destruct (lookup _ _ _ _ _ HN X2) as [[j [Y1 Y2]] | [Y1 [Y2 Y3]]].
      * exists (KReal i), (KReal j). split; [exact (nd_real _ _ _ HN i Hi) | split; [exact Y2|]]. apply (ie_mem _ _ i f n j T); [left; reflexivity | exact X1 | exact Y1].
      * exists (KReal i), (KSym n). split; [exact (nd_real _ _ _ HN i Hi) | split; [exact Y3|]]. apply (ie_mem_extern _ _ i f n T); [left; reflexivity | exact X1 | exact Y1|].
        apply createdE_app. left. exact Y2.
    + rewrite app_nil_r. intros k l X. destruct X as [j g m [X | []] | j g [X | []] | j g m [X | []] | j g [X | []] | j g n m T' [X | []] X1 X2 | j g n T' [X | []] X1 X2 []];
        try discriminate X; injection X as <- <-; try contradiction.
      exists i, m. split; [exact (nd_real _ _ _ HN i Hi)|]. pose proof (nd_real _ _ _ HN m (live_lt _ _ (chosen_live _ _ X2))) as Y. split; [exact Y|].
      apply E. right. exists n, m. split; [apply L; exact X1 | split; [|reflexivity]]. apply (nd_idx _ _ _ HN). left. exists m. split; assumption.
    + intros _. exact G.
  - apply (other_step evs i (DirectCall f) e); [exact HO | split; assumption].
Qed.

(** One statement. *)
Lemma stmt_step evs i c st e e' ks : INV evs e ks -> chosen p i c -> exec_stmt p (n_aliases nd0) c i e st = Ret e' ->
  e_defined e' = e_defined e /\ exists extra, INV (evs ++ [(i, st)]) e' (ks ++ extra).
Proof.
  intros H Hc E. pose proof (live_lt _ _ (chosen_live _ _ Hc)) as Hi. destruct H as [HN HE HO]. pose proof (nd_real _ _ _ HN i Hi) as Ri.
  assert (Quiet : forall e1, e_g e1 = e_g e -> e_indices e1 = e_indices e -> e_seen e1 = e_seen e ->
    (forall n, ~ createdE [(i, st)] n) -> (forall k l, ~ irE [(i, st)] (fun _ => False) k l) -> OTHER (evs ++ [(i, st)]) e1 ->
    exists extra, INV (evs ++ [(i, st)]) e1 (ks ++ extra)).
  { intros e1 E1 E2 E3 N1 N2 O. exists []. rewrite app_nil_r. constructor; [|apply (edges_quiet evs _ e); assumption | exact O].
    apply (nodes_same evs _ e); [exact HN | intros n X; exfalso; exact (N1 n X) | rewrite E1; reflexivity | exact E2]. }
  assert (Nocall : (forall f, st <> DirectCall f) -> (forall f, st <> BitcastCall f) ->
    (forall n, ~ createdE [(i, st)] n) /\ forall k l, ~ irE [(i, st)] (fun _ => False) k l).
  { intros N1 N2. split.
    - intros n [[j [[X | []] _]] | [j [[X | []] _]]]; injection X as _ X; [exact (N1 _ X) | exact (N2 _ X)].
    - intros k l X. destruct X as [j g m [X | []] | j g [X | []] | j g m [X | []] | j g [X | []] | j g n m T' [X | []] | j g n T' [X | []]];
        injection X as _ X; solve [exact (N1 _ X) | exact (N2 _ X)]. }
  destruct st as [code | [f |] | f | s | | |]; cbn [exec_stmt] in E.
  - (* Asm *)
    injection E as <-. split; [reflexivity|]. destruct Nocall as [N1 N2]; try discriminate. apply Quiet; try reflexivity; try assumption.
    apply (other_step evs i (Asm code) e); [exact HO|]. split; [reflexivity|]. exists c. split; [exact Hc | reflexivity].
  - (* BitcastCall *)
    assert (U : forall n, createdE [(i, BitcastCall (Some f))] n <-> n = f /\ forall j, ~ chosen p j f).
    { intros n. split.
      - intros [[j [[X | []] _]] | [j [[X | []] K]]]; [discriminate X|]. injection X as _ <-. split; [reflexivity | exact K].
      - intros [-> K]. right. exists i. split; [left; reflexivity | exact K]. }
    assert (I1 : forall known k l, irE [(i, BitcastCall (Some f))] known k l -> k = KReal i /\ ((exists j, chosen p j f /\ l = KReal j) \/ ((forall j, ~ chosen p j f) /\ l = KSym f))).
    { intros known k l X. destruct X as [j g m [X | []] | j g [X | []] | j g m [X | []] K | j g [X | []] K | j g n m T' [X | []] | j g n T' [X | []]]; try discriminate X; injection X as <- <-;
        (split; [reflexivity|]); [left; exists m; split; [exact K | reflexivity] | right; split; [exact K | reflexivity]]. }
    assert (G : forall e1 v extra l, NODES (evs ++ [(i, BitcastCall (Some f))]) e1 (ks ++ extra) -> gedges (e_g e1) = gedges (e_g e) -> e_seen e1 = e_seen e ->
       e_indirects e1 = e_indirects e -> e_asm e1 = e_asm e ->
       nth_error (ks ++ extra) v = Some l -> (forall known, irE [(i, BitcastCall (Some f))] known (KReal i) l) ->
       (forall known k l', irE [(i, BitcastCall (Some f))] known k l' -> k = KReal i /\ l' = l) ->
       INV (evs ++ [(i, BitcastCall (Some f))]) (e_set_g e1 (add_edge (e_g e1) i v)) (ks ++ extra)).
    { intros e1 v extra l N Eg Es Eind Easm Ev Yes Only. constructor.
      - constructor; cbn [e_set_g e_g e_indices add_edge gnodes]; [exact (nd_show _ _ _ N) | exact (nd_real _ _ _ N) | exact (nd_keys _ _ _ N) | exact (nd_in _ _ _ N) | exact (nd_idx _ _ _ N)].
      - apply (edges_step _ _ _ _ _ _ HE); cbn [e_set_g e_g e_seen add_edge gedges]; rewrite ?Eg, ?Es.
        + intros x X. apply in_or_app. left. exact (es_seen _ _ _ HE x X).
        + intros x X. apply in_or_app. left. exact X.
        + intros u w X. apply in_app_or in X. destruct X as [X | [X | []]]; [left; exact X|]. injection X as <- <-. right. exists (KReal i), l.
          split; [exact (nth_app_l _ _ _ _ Ri) | split; [exact Ev | apply Yes]].
        + intros k l' X. destruct (Only _ _ _ X) as [-> ->]. exists i, v. split; [exact (nth_app_l _ _ _ _ Ri) | split; [exact Ev|]]. apply in_or_app. right. left. reflexivity.
        + intros N'. exfalso. apply (N' i (Some f)). apply in_or_app. right. left. reflexivity.
      - apply (other_step evs i (BitcastCall (Some f)) e); [exact HO | split; cbn [e_set_g e_indirects e_asm]; assumption]. }
    destruct (sget (e_indices e) f) as [v|] eqn:Es.
    + injection E as <-. split; [reflexivity|]. exists [].
      assert (N : NODES (evs ++ [(i, BitcastCall (Some f))]) e (ks ++ [])).
      { rewrite app_nil_r. apply (nodes_same evs _ e); [exact HN | | reflexivity | reflexivity]. intros n X. apply U in X. destruct X as [-> X].
        destruct (lookup _ _ _ _ _ HN Es) as [[j [Y _]] | [_ [Y _]]]; [exfalso; exact (X j Y) | exact Y]. }
      destruct (lookup _ _ _ _ _ HN Es) as [[j [Y1 Y2]] | [Y1 [Y2 Y3]]].
      * apply (G e v [] (KReal j) N); try reflexivity; [rewrite app_nil_r; exact Y2 | intros known; apply (ie_cast _ _ i f j); [left; reflexivity | exact Y1]|].
        intros known k l' X. destruct (I1 _ _ _ X) as [-> [[j' [C ->]] | [C _]]]; split; try reflexivity; [rewrite (chosen_inj _ _ _ C Y1); reflexivity | exfalso; exact (C j Y1)].
      * apply (G e v [] (KSym f) N); try reflexivity; [rewrite app_nil_r; exact Y3 | intros known; apply (ie_cast_extern _ _ i f); [left; reflexivity | exact Y1]|].
        intros known k l' X. destruct (I1 _ _ _ X) as [-> [[j' [C ->]] | [C ->]]]; split; try reflexivity. exfalso. exact (Y1 j' C).
    + destruct (nodes_unknown evs (i, BitcastCall (Some f)) e ks f HN Es) as [N Ev].
      * apply U. split; [reflexivity|]. apply (nd_idx_None _ _ _ _ HN) in Es. apply Es.
      * intros m X. apply U in X. apply X.
      * destruct (add_unknown f e) as [e1 v] eqn:Eu. injection E as <-. cbn [fst snd] in N, Ev. subst v. unfold add_unknown in Eu. cbn [add_node] in Eu. injection Eu as <- Ev'.
        apply (nd_idx_None _ _ _ _ HN) in Es. destruct Es as [Es _].
        split; [reflexivity|]. exists [KSym f]. apply (G _ (length ks) [KSym f] (KSym f) N); try reflexivity.
        -- apply nth_snoc. right. split; reflexivity.
        -- intros known. apply (ie_cast_extern _ _ i f); [left; reflexivity | exact Es].
        -- intros known k l' X. destruct (I1 _ _ _ X) as [-> [[j' [C ->]] | [C ->]]]; split; try reflexivity. exfalso. exact (Es j' C).
  - discriminate E.
  - (* DirectCall *)
    destruct (classify (is_thumb (pg_target p)) f) as [|names| |] eqn:Ec.
    + (* skipped *)
      injection E as <-. split; [reflexivity|]. assert (IF : intrinsic f) by (apply (classify_intrinsic (is_thumb (pg_target p))); rewrite Ec; discriminate).
      apply Quiet; try reflexivity.
      * intros n [[j [[X | []] [N _]]] | [j [[X | []] _]]]; [|discriminate X]. injection X as <- <-. contradiction.
      * intros k l X. destruct X as [j g m [X | []] | j g [X | []] | j g m [X | []] | j g [X | []] | j g n m T' [X | []] X1 X2 | j g n T' [X | []] X1 X2 []];
          try discriminate X; injection X as <- <-; try contradiction. rewrite T' in Ec. exact (classify_skip _ _ X1 Ec).
      * apply (other_step evs i (DirectCall f) e); [exact HO | split; reflexivity].
    + (* memory intrinsics *)
      injection E as <-. destruct (classify_mem _ _ _ Ec) as [T L]. split.
      * clear. induction names as [|n names IH] using rev_ind; [reflexivity|]. rewrite fold_left_app. cbn [fold_left]. set (e1 := fold_left _ names e) in *.
        destruct (sget (e_indices e1) n); [|exact IH]. unfold call_once, add_once. destruct (pmem _ _); exact IH.
      * exists []. rewrite app_nil_r. apply mem_step; [constructor; assumption | exact Hi | exact T | exact L|].
        apply (classify_intrinsic (is_thumb (pg_target p))). rewrite Ec. discriminate.
    + discriminate E.
    + (* functions *)
      pose proof (classify_function _ _ Ec) as NI.
      assert (NL : forall n, ~ lowers f n) by (intros n X; exact (NI (lowers_intrinsic _ _ X))).
      assert (I1 : forall known k l, irE [(i, DirectCall f)] known k l -> k = KReal i /\
         ((exists j, live p f j /\ l = KReal j /\ (f = memcmp -> chosen p j f \/ known f)) \/ ((forall j, ~ live p f j) /\ l = KSym f /\ (f = memcmp -> known f)))).
      { intros known k l X. destruct X as [j g m [X | []] K1 K2 K3 | j g [X | []] K1 K2 K3 | j g m [X | []] | j g [X | []] | j g n m T' [X | []] X1 | j g n T' [X | []] X1]; try discriminate X;
          injection X as <- <-; (split; [reflexivity|]); [left; exists m; repeat split; assumption | right; repeat split; assumption | |]; exfalso; exact (NL _ X1). }
      assert (U : forall n, createdE [(i, DirectCall f)] n <-> n = f /\ f <> memcmp /\ forall j, ~ live p f j).
      { intros n. split.
        - intros [[j [[X | []] K]] | [j [[X | []] _]]]; [|discriminate X]. injection X as _ <-. split; [reflexivity | apply K].
        - intros [-> [K1 K2]]. left. exists i. split; [left; reflexivity | split; [exact NI | split; [exact K1 | exact K2]]]. }
      destruct (str_eqb f (lit "memcmp") && negb (shas (e_indices e) f)) eqn:Em.
      * (* memcmp, unknown *)
        injection E as <-. split; [reflexivity|]. apply andb_prop in Em. destruct Em as [Em1 Em2]. apply str_eqb_eq in Em1.
        assert (Es : sget (e_indices e) f = None) by (unfold shas in Em2; destruct (sget (e_indices e) f); [discriminate Em2 | reflexivity]).
        apply (nd_idx_None _ _ _ _ HN) in Es. destruct Es as [Es _]. apply Quiet; try reflexivity.
        -- intros n X. apply U in X. destruct X as [_ [X _]]. exact (X Em1).
        -- intros k l X. destruct (I1 _ _ _ X) as [_ [[j [_ [_ K]]] | [_ [_ K]]]]; [destruct (K Em1) as [K' | []]; exact (Es j K') | exact (K Em1)].
        -- apply (other_step evs i (DirectCall f) e); [exact HO | split; reflexivity].
      * assert (Hm : f = memcmp -> exists u, sget (e_indices e) f = Some u).
        { intros ->. change (lit "memcmp") with memcmp in Em. rewrite str_eqb_refl in Em. cbn [andb] in Em. unfold shas in Em.
          destruct (sget (e_indices e) memcmp) as [u|]; [exists u; reflexivity | discriminate Em]. }
        (* the final step *)
        assert (G : forall e1 v extra l, NODES (evs ++ [(i, DirectCall f)]) e1 (ks ++ extra) -> gedges (e_g e1) = gedges (e_g e) -> e_seen e1 = e_seen e ->
          e_indirects e1 = e_indirects e -> e_asm e1 = e_asm e -> e_defined e1 = e_defined e ->
          nth_error (ks ++ extra) v = Some l -> irE [(i, DirectCall f)] (createdE (evs ++ [(i, DirectCall f)])) (KReal i) l ->
          (forall known k l', irE [(i, DirectCall f)] known k l' -> k = KReal i /\ l' = l) ->
          e_defined (call_once i v e1) = e_defined e /\ INV (evs ++ [(i, DirectCall f)]) (call_once i v e1) (ks ++ extra)).
        { intros e1 v extra l N Eg Es Eind Easm Edef Ev Yes Only.
          pose proof (call_once_spec i v e1) as K. rewrite Eg, Es in K. specialize (K (es_seen _ _ _ HE)). cbv zeta in K. destruct K as [A [B [C [D [F _]]]]].
          split; [congruence|]. constructor.
          - constructor; [rewrite A; exact (nd_show _ _ _ N) | exact (nd_real _ _ _ N) | exact (nd_keys _ _ _ N) | exact (nd_in _ _ _ N) | rewrite B; exact (nd_idx _ _ _ N)].
          - apply (edges_call evs _ e ks extra i v l e1); try assumption; [exact (nth_app_l _ _ _ _ Ri)|]. intros k l' X. exact (Only _ _ _ X).
          - apply (other_step evs i (DirectCall f) e); [exact HO | split; congruence]. }
        destruct (sget (n_aliases nd0) f) as [canon|] eqn:Ea.
        -- (* a live function *)
           apply (rn_aliases _ _ _ _ R) in Ea. rewrite upto_all in Ea. destruct Ea as [j [Lj Cj]].
           assert (Es : sget (e_indices e) canon = Some j).
           { apply (nd_idx _ _ _ HN). left. exists j. split; [exact Cj | exact (nd_real _ _ _ HN j (live_lt _ _ Lj))]. }
           rewrite Es in E. cbn [bind] in E. injection E as <-.
           destruct (G e j [] (KReal j)) as [A B]; try reflexivity.
           ++ rewrite app_nil_r. apply (nodes_same evs _ e); [exact HN | | reflexivity | reflexivity]. intros n X. apply U in X. destruct X as [_ [_ X]]. exfalso. exact (X j Lj).
           ++ rewrite app_nil_r. exact (nd_real _ _ _ HN j (live_lt _ _ Lj)).
           ++ apply (ie_direct _ _ i f j); [left; reflexivity | exact NI | exact Lj|]. intros Ef. destruct (Hm Ef) as [u Eu].
              destruct (lookup _ _ _ _ _ HN Eu) as [[j' [Y1 Y2]] | [Y1 [Y2 Y3]]]; [left|right; apply createdE_app; left; exact Y2].
              rewrite (live_inj _ _ _ Lj (chosen_live _ _ Y1)). exact Y1.
           ++ intros known k l' X. destruct (I1 _ _ _ X) as [-> [[j' [K1 [-> _]]] | [K1 _]]]; split; try reflexivity; [rewrite (live_inj _ _ _ K1 Lj); reflexivity | exfalso; exact (K1 j Lj)].
           ++ split; [exact A|]. exists []. exact B.
        -- (* outside *)
           assert (NLv : forall j, ~ live p f j).
           { intros j Lj. destruct (live_chosen _ _ Lj) as [c' Cc]. assert (Y : sget (n_aliases nd0) f = Some c').
             { apply (rn_aliases _ _ _ _ R). rewrite upto_all. exists j. split; assumption. }
             congruence. }
           destruct (negb (smem f (pg_undefined p))); [discriminate E|].
           assert (Only : forall known k l', irE [(i, DirectCall f)] known k l' -> k = KReal i /\ l' = KSym f).
           { intros known k l' X. destruct (I1 _ _ _ X) as [-> [[j' [K1 _]] | [_ [-> _]]]]; split; try reflexivity. exfalso. exact (NLv j' K1). }
           destruct (sget (e_indices e) f) as [v|] eqn:Es.
           ++ cbn [bind] in E. injection E as <-. destruct (lookup _ _ _ _ _ HN Es) as [[j' [Y1 Y2]] | [Y1 [Y2 Y3]]]; [exfalso; exact (NLv j' (chosen_live _ _ Y1))|].
              destruct (G e v [] (KSym f)) as [A B]; try reflexivity.
              ** rewrite app_nil_r. apply (nodes_same evs _ e); [exact HN | | reflexivity | reflexivity]. intros n X. apply U in X. destruct X as [-> _]. exact Y2.
              ** rewrite app_nil_r. exact Y3.
              ** apply (ie_extern _ _ i f); [left; reflexivity | exact NI | exact NLv|]. intros _. apply createdE_app. left. exact Y2.
              ** exact Only.
              ** split; [exact A|]. exists []. exact B.
           ++ assert (Nm : f <> memcmp) by (intros Ef; destruct (Hm Ef) as [u Eu]; congruence).
              destruct (nodes_unknown evs (i, DirectCall f) e ks f HN Es) as [N Ev].
              ** apply U. split; [reflexivity | split; [exact Nm | exact NLv]].
              ** intros m X. apply U in X. apply X.
              ** destruct (add_unknown f e) as [e1 v] eqn:Eu. cbn [bind] in E. injection E as <-. cbn [fst snd] in N, Ev. subst v.
                 unfold add_unknown in Eu. cbn [add_node] in Eu. injection Eu as <- Ev'.
                 match goal with |- context [call_once i (length ks) ?e1] => destruct (G e1 (length ks) [KSym f] (KSym f)) as [A B] end; try reflexivity.
                 --- exact N.
                 --- apply nth_snoc. right. split; reflexivity.
                 --- apply (ie_extern _ _ i f); [left; reflexivity | exact NI | exact NLv|]. intros Ef. contradiction.
                 --- exact Only.
                 --- split; [exact A|]. exists [KSym f]. exact B.
  - (* IndirectCall *)
    injection E as <-. split; [reflexivity|]. destruct Nocall as [N1 N2]; try discriminate. apply Quiet; try reflexivity; try assumption.
    apply (other_step evs i (IndirectCall s) e); [exact HO | split; reflexivity].
  - injection E as <-. split; [reflexivity|]. destruct Nocall as [N1 N2]; try discriminate. apply Quiet; try reflexivity; try assumption.
    apply (other_step evs i SComment e); [exact HO | split; reflexivity].
  - injection E as <-. split; [reflexivity|]. destruct Nocall as [N1 N2]; try discriminate. apply Quiet; try reflexivity; try assumption.
    apply (other_step evs i Label e); [exact HO | split; reflexivity].
  - injection E as <-. split; [reflexivity|]. destruct Nocall as [N1 N2]; try discriminate. apply Quiet; try reflexivity; try assumption.
    apply (other_step evs i Other e); [exact HO | split; reflexivity].
Qed.

Lemma stmts_step i c sts : chosen p i c -> forall evs e e' ks, INV evs e ks -> ofold (exec_stmt p (n_aliases nd0) c i) sts e = Ret e' ->
  e_defined e' = e_defined e /\ exists evs' ks', INV evs' e' ks' /\ forall j st, In (j, st) evs' <-> In (j, st) evs \/ (j = i /\ In st sts).
Proof.
  intros Hc. induction sts as [|st sts IH]; intros evs e e' ks H E; cbn [ofold] in E.
  - injection E as <-. split; [reflexivity|]. exists evs, ks. split; [exact H|]. intros j st. cbn [In]. tauto.
  - destruct (bind_inv _ _ _ E) as [e1 [E1 E2]]. destruct (stmt_step _ _ _ _ _ _ _ H Hc E1) as [D1 [extra H1]].
    destruct (IH _ _ _ _ H1 E2) as [D2 [evs' [ks' [H2 K]]]]. split; [congruence|]. exists evs', ks'. split; [exact H2|].
    intros j st'. rewrite K, in_app_iff. cbn [In]. split.
    + intros [[X | [X | []]] | [-> X]]; [left; exact X | injection X as <- <-; right; split; [reflexivity | left; reflexivity] | right; split; [reflexivity | right; exact X]].
    + intros [X | [-> [<- | X]]]; [left; left; exact X | left; right; left; reflexivity | right; split; [reflexivity | exact X]].
Qed.

Lemma INV_defined evs e ks d : INV evs e ks -> INV evs (mkEdges (e_g e) (e_indices e) (e_indirects e) (e_seen e) d (e_asm e)) ks.
Proof.
  intros [A B C]. constructor.
  - constructor; [exact (nd_show _ _ _ A) | exact (nd_real _ _ _ A) | exact (nd_keys _ _ _ A) | exact (nd_in _ _ _ A) | exact (nd_idx _ _ _ A)].
  - constructor; [exact (es_seen _ _ _ B) | exact (es_wf _ _ _ B) | exact (es_must _ _ _ B) | exact (es_may _ _ _ B) | exact (es_nodup _ _ _ B)].
  - constructor; [exact (ot_keys _ _ C) | exact (ot_ind _ _ C) | exact (ot_asm _ _ C)].
Qed.

Lemma defines_step ds : forall evs e e' ks, INV evs e ks -> ofold (exec_define p (n_aliases nd0)) ds e = Ret e' ->
  exists evs' ks', INV evs' e' ks' /\
    (forall j st, In (j, st) evs' <-> In (j, st) evs \/ exists d, In d ds /\ live p (d_name d) j /\ In st (d_stmts d)) /\
    (forall c, In c (e_defined e') <-> In c (e_defined e) \/ exists d j, In d ds /\ live p (d_name d) j /\ chosen p j c).
Proof.
  induction ds as [|d ds IH]; intros evs e e' ks H E; cbn [ofold] in E.
  - injection E as <-. exists evs, ks. split; [exact H|]. split.
    + intros j st. split; [tauto|]. intros [X | [d [[] _]]]. exact X.
    + intros c. split; [tauto|]. intros [X | [d [j [[] _]]]]. exact X.
  - destruct (bind_inv _ _ _ E) as [e1 [E1 E2]]. unfold exec_define in E1. destruct (sget (n_aliases nd0) (d_name d)) as [c|] eqn:Ea.
    + apply (rn_aliases _ _ _ _ R) in Ea. rewrite upto_all in Ea. destruct Ea as [i [Li Ci]].
      pose proof (INV_defined _ _ _ (sinsert (e_defined e) c) H) as H0.
      assert (Es : sget (e_indices e) c = Some i).
      { apply (nd_idx _ _ _ (iv_nodes _ _ _ H)). left. exists i. split; [exact Ci | exact (nd_real _ _ _ (iv_nodes _ _ _ H) i (live_lt _ _ Li))]. }
      cbv zeta in E1. cbn [e_indices] in E1. rewrite Es in E1. destruct (stmts_step i c _ Ci _ _ _ _ H0 E1) as [D1 [evs1 [ks1 [H1 K1]]]].
      destruct (IH _ _ _ _ H1 E2) as [evs' [ks' [H2 [K2 K3]]]]. exists evs', ks'. split; [exact H2|]. split.
      * intros j st. rewrite K2, K1. cbn [In]. split.
        -- intros [[X | [-> X]] | [d' [X Y]]]; [left; exact X | right; exists d; split; [left; reflexivity | split; assumption] | right; exists d'; split; [right; exact X | exact Y]].
        -- intros [X | [d' [[<- | X] [Y Z]]]]; [left; left; exact X | left; right; split; [exact (live_inj _ _ _ Y Li) | exact Z] | right; exists d'; repeat split; assumption].
      * intros c'. rewrite K3, D1. cbn [e_defined In]. rewrite sinsert_In. split.
        -- intros [[X | ->] | [d' [j [X Y]]]]; [left; exact X | right; exists d, i; split; [left; reflexivity | split; assumption] | right; exists d', j; split; [right; exact X | exact Y]].
        -- intros [X | [d' [j [[<- | X] [Y Z]]]]]; [left; left; exact X | left; right; rewrite (live_inj _ _ _ Y Li) in Z; exact (chosen_fun _ _ _ Z Ci) | right; exists d', j; repeat split; assumption].
    + injection E1 as <-. destruct (IH _ _ _ _ H E2) as [evs' [ks' [H2 [K2 K3]]]]. exists evs', ks'. split; [exact H2|].
      assert (NL : forall j, ~ live p (d_name d) j).
      { intros j Lj. destruct (live_chosen _ _ Lj) as [c' Cc]. assert (Y : sget (n_aliases nd0) (d_name d) = Some c').
        { apply (rn_aliases _ _ _ _ R). rewrite upto_all. exists j. split; assumption. }
        congruence. }
      split.
      * intros j st. rewrite K2. cbn [In]. split; (intros [X | [d' [X Y]]]; [left; exact X|]); right; exists d'; (split; [|exact Y]); [right; exact X|].
        destruct X as [<- | X]; [exfalso; exact (NL _ (proj1 Y)) | exact X].
      * intros c. rewrite K3. cbn [In]. split; (intros [X | [d' [j [X Y]]]]; [left; exact X|]); right; exists d', j; (split; [|exact Y]); [right; exact X|].
        destruct X as [<- | X]; [exfalso; exact (NL _ (proj1 Y)) | exact X].
Qed.

Lemma real_keys : forall i, i < length (pg_defined p) -> nth_error (map KReal (seq 0 (length (pg_defined p)))) i = Some (KReal i).
Proof.
  intros i Hi. rewrite nth_error_map. assert (X : nth_error (seq 0 (length (pg_defined p))) i = Some i).
  { rewrite (nth_error_nth' _ 0) by (rewrite seq_length; exact Hi). rewrite seq_nth by exact Hi. reflexivity. }
  rewrite X. reflexivity.
Qed.
Lemma INV0 : INV [] (mkEdges (n_g nd0) (n_indices nd0) (n_indirects nd0) [] [] []) (map KReal (seq 0 (length (pg_defined p)))).
Proof.
  assert (NC : forall n, ~ createdE [] n) by (intros n [[j [[] _]] | [j [[] _]]]).
  constructor.
  - constructor; cbn [e_g e_indices].
    + pose proof (rn_len _ _ _ _ R) as L. pose proof (rn_node _ _ _ _ R) as N. rewrite upto_all in N.
      assert (Z : forall ks l, length ks = length l -> (forall i k, nth_error ks i = Some k -> forall nd, nth_error l i = Some nd -> show0 k nd) -> Forall2 show0 ks l).
      { clear. intros ks. induction ks as [|k ks IH]; intros [|nd l] Hl H; try discriminate; constructor; [exact (H 0 k eq_refl nd eq_refl)|].
        apply IH; [injection Hl as Hl; exact Hl|]. intros i k' H1 nd' H2. exact (H (S i) k' H1 nd' H2). }
      apply Z; [rewrite map_length, seq_length; symmetry; exact L|]. intros i k Hk nd Hn.
      assert (Hi : i < length (pg_defined p)) by (rewrite <- L; apply nth_error_Some; rewrite Hn; discriminate).
      rewrite (real_keys i Hi) in Hk. injection Hk as <-. exact (N i nd Hn).
    + exact real_keys.
    + apply FinFun.Injective_map_NoDup; [intros a b X; injection X as X; exact X | apply seq_NoDup].
    + intros k. rewrite in_map_iff. split.
      * intros [i [<- X]]. apply in_seq in X. left. exists i. split; [lia | reflexivity].
      * intros [[i [X ->]] | [n [X _]]]; [exists i; split; [reflexivity | apply in_seq; lia] | exfalso; exact (NC n X)].
    + intros n u. rewrite (rn_indices _ _ _ _ R), upto_all. split.
      * intros C. left. exists u. split; [exact C | exact (real_keys u (live_lt _ _ (chosen_live _ _ C)))].
      * intros [[j [C X]] | X].
        -- rewrite nth_error_map in X. destruct (nth_error (seq 0 _) u) as [v|] eqn:Y; [|discriminate X]. injection X as ->.
           assert (Hu : u < length (pg_defined p)) by (rewrite <- (seq_length (length (pg_defined p)) 0); apply nth_error_Some; rewrite Y; discriminate).
           pose proof (real_keys u Hu) as Z. rewrite nth_error_map, Y in Z. injection Z as ->. exact C.
        -- rewrite nth_error_map in X. destruct (nth_error (seq 0 _) u); discriminate X.
  - constructor; cbn [e_g e_seen]; rewrite ?(rn_edges _ _ _ _ R); cbn [In].
    + intros x [].
    + intros u v [].
    + intros k l X. destruct X as [? ? ? [] | ? ? [] | ? ? ? [] | ? ? [] | ? ? ? ? ? [] | ? ? ? ? []].
    + intros u v [].
    + intros _. split; [constructor | intros x []].
  - constructor; cbn [e_indirects e_asm].
    + reflexivity.
    + intros sg ind X. destruct (rn_ind _ _ _ _ R sg ind X) as [A [B [C _]]]. rewrite A, B. split; [exists ind; split; [exact X | reflexivity]|].
      split; [|split].
      * split; [discriminate|]. intros [i [s' [[] _]]].
      * intros i. split; [intros [] | intros [s' [[] _]]].
      * constructor.
    + intros c. split; [intros [] | intros [i [code [[] _]]]].
Qed.

(** The result of the pass. *)
Theorem ir_edges_spec e : ir_edges p nd0 = Ret e -> exists evs ks, INV evs e ks /\ (forall i st, In (i, st) evs <-> body p i st) /\
  (forall c, In c (e_defined e) <-> exists n d i, In (n, d) (pg_defines p) /\ live p n i /\ chosen p i c).
Proof.
  intros E. unfold ir_edges in E. destruct (defines_step _ _ _ _ _ INV0 E) as [evs [ks [H [K1 K2]]]]. exists evs, ks. split; [exact H|]. split.
  - intros i st. rewrite K1. unfold body. cbn [In]. split.
    + intros [[] | [d [X [Y Z]]]]. apply in_map_iff in X. destruct X as [[n d'] [<- X]]. exists n, d'. cbn [snd] in *.
      rewrite (wf_def_names _ W n d' X). repeat split; try assumption. rewrite <- (wf_def_names _ W n d' X). exact X.
    + intros [n [d [X [Y Z]]]]. right. exists d. split; [apply in_map_iff; exists (n, d); split; [reflexivity | exact X]|].
      rewrite <- (wf_def_names _ W n d X). split; assumption.
  - intros c. rewrite K2. cbn [e_defined In]. split.
    + intros [[] | [d [j [X [Y Z]]]]]. apply in_map_iff in X. destruct X as [[n d'] [<- X]]. exists n, d', j. cbn [snd] in *.
      rewrite (wf_def_names _ W n d' X). repeat split; try assumption. rewrite <- (wf_def_names _ W n d' X). exact X.
    + intros [n [d [j [X [Y Z]]]]]. right. exists d, j. split; [apply in_map_iff; exists (n, d); split; [reflexivity | exact X]|].
      rewrite <- (wf_def_names _ W n d X). split; assumption.
Qed.
End IR.
