(** Proofs about symbol names. *)
From Verif Require Import M_base M_stack M_graph M_filter M_names S_names L_base L_filter2.

Lemma skipn_firstn_app {A} n (l : list A) : l = firstn n l ++ skipn n l.
Proof. symmetry; apply firstn_skipn. Qed.

Lemma has_hash_unique d b1 b2 : has_hash d b1 -> has_hash d b2 -> b1 = b2.
Proof.
  intros [_ [h1 [L1 E1]]] [_ [h2 [L2 E2]]]. rewrite E1 in E2.
  assert (Hl : length b1 = length b2).
  { apply (f_equal (@length _)) in E2. rewrite !app_length in E2. simpl in E2. lia. }
  apply (f_equal (firstn (length b1))) in E2. rewrite Hl in E2 at 2.
  rewrite !firstn_app, !Nat.sub_diag, !firstn_O, !app_nil_r, !firstn_all in E2. exact E2.
Qed.

Lemma dehash_some b h : b <> [] -> length h = 16 -> dehash (b ++ lit "::h" ++ h) = Ret (Some b).
Proof.
  intros Hb Hh. unfold dehash, hash_length.
  assert (Hl : length (b ++ lit "::h" ++ h) = length b + 19) by (rewrite !app_length, Hh; simpl; lia).
  rewrite Hl. destruct (Nat.ltb_spec 19 (length b + 19)) as [_|Hc].
  2:{ destruct b; [congruence | simpl in Hc; lia]. }
  replace (length b + 19 - 19) with (length b) by lia.
  assert (Hbd : is_char_boundary (b ++ lit "::h" ++ h) (length b) = true).
  { unfold is_char_boundary. destruct (Nat.eqb (length b) 0); [reflexivity|].
    rewrite nth_error_app2, Nat.sub_diag by lia. reflexivity. }
  unfold str_get_from, str_slice_to. rewrite Hbd.
  rewrite skipn_app, skipn_all, Nat.sub_diag. rewrite skipn_O. cbn [app].
  rewrite starts_with_refl. simpl bind. f_equal. f_equal.
  rewrite firstn_app, firstn_all, Nat.sub_diag, firstn_O, app_nil_r. reflexivity.
Qed.

Lemma dehash_none d : (forall b, ~ has_hash d b) -> dehash d = Ret None.
Proof.
  intros Hn. unfold dehash. destruct (Nat.ltb_spec hash_length (length d)) as [Hl|Hl]; [|reflexivity].
  unfold str_get_from. destruct (is_char_boundary d (length d - hash_length)) eqn:E; [|reflexivity].
  destruct (starts_with (lit "::h") (skipn (length d - hash_length) d)) eqn:E2; [|reflexivity].
  exfalso. apply starts_with_app in E2 as [r Hr].
  apply (Hn (firstn (length d - hash_length) d)). split.
  - intros H. apply (f_equal (@length _)) in H. rewrite firstn_length in H. unfold hash_length in *. simpl in H. lia.
  - exists r. split.
    + apply (f_equal (@length _)) in Hr. rewrite skipn_length in Hr. unfold hash_length in *. simpl in Hr. lia.
    + rewrite <- Hr. apply skipn_firstn_app.
Qed.

Lemma has_hash_dec d : (exists b, has_hash d b) \/ (forall b, ~ has_hash d b).
Proof.
  destruct (Nat.ltb_spec 19 (length d)) as [Hl|Hl].
  - set (b := firstn (length d - 19) d).
    destruct (starts_with (lit "::h") (skipn (length d - 19) d)) eqn:E.
    + left. exists b. apply starts_with_app in E as [r Hr]. split.
      * intros H. apply (f_equal (@length _)) in H. unfold b in H. rewrite firstn_length in H. simpl in H. lia.
      * exists r. split.
        -- apply (f_equal (@length _)) in Hr. rewrite skipn_length in Hr. simpl in Hr. lia.
        -- rewrite <- Hr. apply skipn_firstn_app.
    + right. intros b' [_ [h [Lh ->]]].
      rewrite !app_length, Lh in E. change (length (lit "::h")) with 3 in E.
      replace (length b' + (3 + 16) - 19) with (length b') in E by lia.
      rewrite skipn_app, skipn_all, Nat.sub_diag, skipn_O in E. cbn [app] in E.
      rewrite starts_with_refl in E. discriminate.
  - right. intros b [Hb [h [Lh ->]]]. rewrite !app_length, Lh in Hl. simpl in Hl. destruct b; [congruence | simpl in Hl; lia].
Qed.

Lemma dehash_spec d : exists r, dehash d = Ret r /\ forall b, r = Some b <-> has_hash d b.
Proof.
  destruct (has_hash_dec d) as [[b Hb]|Hn].
  - exists (Some b). split.
    + destruct Hb as [Hb [h [Lh ->]]]. apply dehash_some; auto.
    + intros b'. split; [intros H; inversion H; subst; exact Hb|].
      intros H. f_equal. eapply has_hash_unique; eauto.
  - exists None. split; [apply dehash_none; exact Hn|]. intros b. split; [discriminate | intros H; destruct (Hn _ H)].
Qed.

Lemma dehash_iff d b : dehash d = Ret (Some b) <-> has_hash d b.
Proof.
  destruct (dehash_spec d) as [r [Hr H]]. rewrite Hr. rewrite <- H. split; congruence.
Qed.

Lemma dehash_total d : dehash d = Ret None \/ exists b, dehash d = Ret (Some b) /\ has_hash d b.
Proof.
  destruct (dehash_spec d) as [[b|] [Hr H]]; [right; exists b | left; exact Hr]. split; [exact Hr | apply H; reflexivity].
Qed.

Lemma dehash_not_only_hashes :
  exists d b suffix, dehash d = Ret (Some b) /\ d = b ++ suffix /\ suffix = lit "::handler_functions".
Proof.
  exists (lit "app::handler_functions"), (lit "app"), (lit "::handler_functions"). repeat split; reflexivity.
Qed.

(** ** The table of short names *)
Lemma sget_bump m k k' :
  sget (bump m k) k' = if str_eqb k k' then Some (S (match sget m k with Some n => n | None => 0 end)) else sget m k'.
Proof.
  induction m as [|[a n] m IH]; simpl.
  - destruct (str_eqb k k'); reflexivity.
  - destruct (str_eqb_spec a k) as [->|Hak]; simpl.
    + destruct (str_eqb k k'); reflexivity.
    + destruct (str_eqb_spec a k') as [->|Hak']; [|exact IH].
      destruct (str_eqb_spec k k') as [->|_]; [congruence | reflexivity].
Qed.

(** How many of the names have the short form [b]. *)
Definition short_count (demangle : str -> str) (names : list str) (b : str) : nat :=
  length (filter (fun c => match dehash (demangle c) with Ret (Some x) => str_eqb x b | _ => false end) names).

Definition table_get (m : list (str * nat)) (b : str) : nat := match sget m b with Some n => n | None => 0 end.

Lemma note_names_spec demangle names : forall m, (forall b n, sget m b = Some n -> 0 < n) ->
  exists m', note_names demangle m names = Ret m' /\
    (forall b n, sget m' b = Some n -> 0 < n) /\
    forall b, table_get m' b = table_get m b + short_count demangle names b.
Proof.
  induction names as [|c names IH]; intros m Hpos.
  - exists m. split; [reflexivity|]. split; [exact Hpos|]. intros b. unfold short_count; simpl. lia.
  - cbn [note_names]. unfold note_name.
    destruct (dehash_spec (demangle c)) as [[x|] [Hr _]]; rewrite Hr; cbn [bind].
    + destruct (IH (bump m x)) as [m' [H1 [H2 H3]]].
      { intros b n. rewrite sget_bump. destruct (str_eqb x b); [intros H; inversion H; lia | apply Hpos]. }
      exists m'. split; [exact H1|]. split; [exact H2|]. intros b. rewrite H3.
      unfold table_get. rewrite sget_bump. unfold short_count. cbn [filter]. rewrite Hr.
      destruct (str_eqb_spec x b) as [->|Hne]; cbn [length]; lia.
    + destruct (IH m Hpos) as [m' [H1 [H2 H3]]]. exists m'. split; [exact H1|]. split; [exact H2|].
      intros b. rewrite H3. unfold short_count. cbn [filter]. rewrite Hr. reflexivity.
Qed.

(** The new name of one node, given the table. *)
Definition short_name (demangle : str -> str) (m : list (str * nat)) (c : str) : str :=
  match dehash (demangle c) with
  | Ret (Some b) => if Nat.eqb (table_get m b) 1 then b else c
  | _ => c
  end.

Lemma set_name_id nd : set_name nd (nname nd) = nd.
Proof. destruct nd; reflexivity. Qed.

Lemma shorten_node_spec demangle m nd nd' :
  shorten_node demangle m nd = Ret nd' -> nd' = set_name nd (short_name demangle m (nname nd)).
Proof.
  unfold shorten_node, short_name, table_get.
  destruct (dehash (demangle (nname nd))) as [[b|]| | |]; simpl; try discriminate.
  - destruct (sget m b) as [n|]; [|discriminate].
    destruct (Nat.eqb n 1); intros H; inversion H; subst; [reflexivity | symmetry; apply set_name_id].
  - intros H; inversion H; subst; symmetry; apply set_name_id.
Qed.

Lemma shorten_nodes_spec demangle m nds : forall nds',
  shorten_nodes demangle m nds = Ret nds' ->
  nds' = map (fun nd => set_name nd (short_name demangle m (nname nd))) nds.
Proof.
  induction nds as [|nd nds IH]; simpl; intros nds' H; [inversion H; reflexivity|].
  apply bind_Ret in H as [a [Ha H]]. apply bind_Ret in H as [l [Hl H]]. inversion H; subst.
  rewrite (shorten_node_spec _ _ _ _ Ha). f_equal. apply IH; exact Hl.
Qed.

Lemma shorten_node_ok demangle m nd :
  (forall b, has_hash (demangle (nname nd)) b -> sget m b <> None) ->
  exists nd', shorten_node demangle m nd = Ret nd'.
Proof.
  intros H. unfold shorten_node. destruct (dehash_spec (demangle (nname nd))) as [[b|] [Hr Hb]]; rewrite Hr; simpl.
  - destruct (sget m b) as [n|] eqn:E; [destruct (Nat.eqb n 1); eauto|].
    exfalso. apply (H b); [apply Hb; reflexivity | exact E].
  - eauto.
Qed.

Lemma shorten_nodes_ok demangle m nds :
  (forall nd b, In nd nds -> has_hash (demangle (nname nd)) b -> sget m b <> None) ->
  exists nds', shorten_nodes demangle m nds = Ret nds'.
Proof.
  induction nds as [|nd nds IH]; simpl; intros H; [eauto|].
  destruct (shorten_node_ok demangle m nd) as [nd' Hnd]; [intros b; apply H; left; reflexivity|]. rewrite Hnd. cbn [bind].
  destruct IH as [nds' Hn]; [intros n b Hin; apply H; right; exact Hin|]. rewrite Hn. cbn [bind]. eauto.
Qed.

Lemma short_count_pos demangle names b : 0 < short_count demangle names b <-> exists c, In c names /\ has_hash (demangle c) b.
Proof.
  unfold short_count. split.
  - intros H. destruct (filter _ names) as [|c l] eqn:E; [simpl in H; lia|].
    assert (Hin : In c (c :: l)) by (left; reflexivity). rewrite <- E in Hin. apply filter_In in Hin as [Hin Hc].
    exists c. split; [exact Hin|]. destruct (dehash (demangle c)) as [[x|]| | |] eqn:Ed; try discriminate.
    apply str_eqb_eq in Hc; subst. apply dehash_iff; exact Ed.
  - intros [c [Hin Hh]]. apply dehash_iff in Hh.
    assert (Hc : In c (filter (fun c => match dehash (demangle c) with Ret (Some x) => str_eqb x b | _ => false end) names)).
    { apply filter_In. split; [exact Hin|]. rewrite Hh. apply str_eqb_refl. }
    destruct (filter _ names); [destruct Hc | simpl; lia].
Qed.

Lemma filter_nth_one {A} (p : A -> bool) l i j x y :
  length (filter p l) = 1 -> nth_error l i = Some x -> nth_error l j = Some y -> p x = true -> p y = true -> i = j.
Proof.
  revert i j. induction l as [|a l IH]; intros i j Hl Hi Hj Hx Hy; [destruct i; discriminate|].
  assert (Hno : forall k z, p a = true -> nth_error l k = Some z -> p z = true -> False).
  { intros k z Ha Hk Hz. simpl in Hl. rewrite Ha in Hl. simpl in Hl.
    apply nth_error_In in Hk. assert (In z (filter p l)) by (apply filter_In; auto).
    destruct (filter p l); [destruct H | simpl in Hl; lia]. }
  destruct i as [|i], j as [|j]; simpl in Hi, Hj; auto.
  - inversion Hi; subst. exfalso. eapply Hno; eauto.
  - inversion Hj; subst. exfalso. eapply Hno; eauto.
  - f_equal. destruct (p a) eqn:Ea; [exfalso; eapply (Hno i x); eauto|].
    apply IH; auto. simpl in Hl. rewrite Ea in Hl. exact Hl.
Qed.

Lemma nth_map_name demangle m nds i nd' :
  nth_error (map (fun nd => set_name nd (short_name demangle m (nname nd))) nds) i = Some nd' ->
  exists nd, nth_error nds i = Some nd /\ nd' = set_name nd (short_name demangle m (nname nd)).
Proof.
  rewrite nth_error_map. destruct (nth_error nds i) as [nd|]; [|discriminate]. intros H; inversion H. eauto.
Qed.

Lemma table_eq demangle names m b : note_names demangle [] names = Ret m -> table_get m b = short_count demangle names b.
Proof.
  intros H. destruct (note_names_spec demangle names []) as [m' [H1 [_ H3]]]; [intros x n Hx; discriminate|].
  rewrite H in H1. inversion H1; subst. rewrite H3. reflexivity.
Qed.

(** A node gets the short form of its name iff no other function has that short form. *)
Lemma shorten_rule demangle g rest m g' :
  note_names demangle [] (map nname (gnodes g)) = Ret m ->
  shorten demangle m (mkG (gnodes g ++ rest) (gedges g)) = Ret g' ->
  forall i nd, nth_error (gnodes g) i = Some nd ->
  exists nd', nth_error (gnodes g') i = Some nd' /\
    ((exists b, has_hash (demangle (nname nd)) b /\
        (forall j ndj, nth_error (gnodes g) j = Some ndj -> has_hash (demangle (nname ndj)) b -> j = i) /\
        nd' = set_name nd b) \/
     ((forall b, has_hash (demangle (nname nd)) b ->
         exists j ndj, nth_error (gnodes g) j = Some ndj /\ j <> i /\ has_hash (demangle (nname ndj)) b) /\
      nd' = nd)).
Proof.
  intros Hm Hs i nd Hi. unfold shorten in Hs. apply bind_Ret in Hs as [nds [Hn Hg]]. inversion Hg; subst g'. cbn [gnodes] in *.
  apply shorten_nodes_spec in Hn. subst nds.
  exists (set_name nd (short_name demangle m (nname nd))). split.
  { rewrite nth_error_map, nth_error_app1 by (apply nth_error_Some; congruence). rewrite Hi. reflexivity. }
  unfold short_name. destruct (dehash_spec (demangle (nname nd))) as [[b|] [Hr Hb]]; rewrite Hr.
  - assert (Hh : has_hash (demangle (nname nd)) b) by (apply Hb; reflexivity).
    rewrite (table_eq _ _ _ b Hm). unfold short_count.
    set (p := fun c => match dehash (demangle c) with Ret (Some x) => str_eqb x b | _ => false end).
    assert (Hp : forall c, p c = true <-> has_hash (demangle c) b).
    { intros c. unfold p. rewrite <- dehash_iff. destruct (dehash (demangle c)) as [[x|]| | |]; split; try congruence.
      - intros H; apply str_eqb_eq in H; congruence.
      - intros H; inversion H; apply str_eqb_refl. }
    destruct (Nat.eqb_spec (length (filter p (map nname (gnodes g)))) 1) as [E|E].
    + left. exists b. split; [exact Hh|]. split; [|reflexivity].
      intros j ndj Hj Hjb. eapply (filter_nth_one p (map nname (gnodes g))); try eassumption.
      * rewrite nth_error_map, Hj. reflexivity.
      * rewrite nth_error_map, Hi. reflexivity.
      * apply Hp; exact Hjb.
      * apply Hp; exact Hh.
    + right. split; [|apply set_name_id].
      intros b' Hb'. assert (b' = b) by (eapply has_hash_unique; eauto). subst b'.
      clear - Hi Hh E Hp. revert i Hi E. induction (gnodes g) as [|a l IH]; intros i Hi E; [destruct i; discriminate|].
      destruct i as [|i]; simpl in Hi.
      * inversion Hi; subst a. cbn [map filter] in E. rewrite (proj2 (Hp _) Hh) in E. cbn [length] in E.
        destruct (filter p (map nname l)) as [|c r] eqn:Ef; [simpl in E; lia|].
        assert (Hc : In c (filter p (map nname l))) by (rewrite Ef; left; reflexivity).
        apply filter_In in Hc as [Hc Hpc]. apply in_map_iff in Hc as [ndj [<- Hin]].
        apply In_nth_error in Hin as [j Hj]. exists (S j), ndj. split; [exact Hj|]. split; [lia | apply Hp; exact Hpc].
      * destruct (p (nname a)) eqn:Ea.
        -- exists 0, a. split; [reflexivity|]. split; [lia | apply Hp; exact Ea].
        -- destruct (IH i Hi) as [j [ndj [Hj [Hji Hjb]]]].
           { cbn [map filter] in E. rewrite Ea in E. exact E. }
           exists (S j), ndj. split; [exact Hj|]. split; [lia | exact Hjb].
  - right. split; [|apply set_name_id]. intros b Hb'. apply Hb in Hb'. discriminate.
Qed.

(** Labels of hashed functions stay different if no short form itself looks hashed. *)
Lemma shorten_labels_differ demangle g m g' :
  note_names demangle [] (map nname (gnodes g)) = Ret m ->
  shorten demangle m g = Ret g' ->
  (forall nd b, In nd (gnodes g) -> has_hash (demangle (nname nd)) b -> demangle b = b /\ forall b', ~ has_hash b b') ->
  forall i j ndi ndj bi bj ndi' ndj',
    i <> j ->
    nth_error (gnodes g) i = Some ndi -> nth_error (gnodes g) j = Some ndj ->
    has_hash (demangle (nname ndi)) bi -> has_hash (demangle (nname ndj)) bj ->
    demangle (nname ndi) <> demangle (nname ndj) ->
    nth_error (gnodes g') i = Some ndi' -> nth_error (gnodes g') j = Some ndj' ->
    demangle (nname ndi') <> demangle (nname ndj').
Proof.
  intros Hm Hs Hd i j ndi ndj bi bj ndi' ndj' Hij Hi Hj Hbi Hbj Hne Hi' Hj'.
  assert (Hs' : shorten demangle m (mkG (gnodes g ++ []) (gedges g)) = Ret g').
  { rewrite app_nil_r. destruct g; exact Hs. }
  destruct (shorten_rule demangle g [] m g' Hm Hs' i ndi Hi) as [x [Hx Cx]]. rewrite Hx in Hi'; inversion Hi'; subst x.
  destruct (shorten_rule demangle g [] m g' Hm Hs' j ndj Hj) as [y [Hy Cy]]. rewrite Hy in Hj'; inversion Hj'; subst y.
  pose proof (Hd ndi bi (nth_error_In _ _ Hi) Hbi) as [Di Ni].
  pose proof (Hd ndj bj (nth_error_In _ _ Hj) Hbj) as [Dj Nj].
  destruct Cx as [[b [Hb [Ux ->]]]|[_ -> ]], Cy as [[b2 [Hb2 [Uy ->]]]|[_ ->]]; simpl.
  - assert (b = bi) by (eapply has_hash_unique; eauto). assert (b2 = bj) by (eapply has_hash_unique; eauto). subst.
    rewrite Di, Dj. intros <-. apply Hij. symmetry. eapply Ux; eauto.
  - assert (b = bi) by (eapply has_hash_unique; eauto). subst. rewrite Di. intros E. rewrite <- E in Hbj. eapply Ni; eauto.
  - assert (b2 = bj) by (eapply has_hash_unique; eauto). subst. rewrite Dj. intros E. rewrite E in Hbi. eapply Nj; eauto.
  - exact Hne.
Qed.

Lemma shorten_total demangle g m names :
  note_names demangle [] names = Ret m ->
  (forall nd b, In nd (gnodes g) -> has_hash (demangle (nname nd)) b -> exists c, In c names /\ has_hash (demangle c) b) ->
  exists g', shorten demangle m g = Ret g' /\ gedges g' = gedges g /\ length (gnodes g') = length (gnodes g).
Proof.
  intros Hm Hc. unfold shorten.
  destruct (shorten_nodes_ok demangle m (gnodes g)) as [nds Hn].
  { intros nd b Hin Hb. destruct (Hc nd b Hin Hb) as [c Hcb].
    assert (Hp : 0 < table_get m b).
    { rewrite (table_eq _ _ _ b Hm). apply short_count_pos. exists c; exact Hcb. }
    unfold table_get in Hp. destruct (sget m b); [discriminate | lia]. }
  rewrite Hn. cbn [bind]. eexists. split; [reflexivity|]. split; [reflexivity|]. cbn [gnodes].
  apply shorten_nodes_spec in Hn. subst nds. apply map_length.
Qed.

Lemma shorten_panics demangle g m names nd b :
  note_names demangle [] names = Ret m ->
  In nd (gnodes g) -> has_hash (demangle (nname nd)) b ->
  (forall c, In c names -> ~ has_hash (demangle c) b) ->
  exists msg, shorten demangle m g = Panic msg.
Proof.
  intros Hm Hin Hb Hno. exists "HashMap index: no entry found for key"%string.
  assert (Hz : sget m b = None).
  { destruct (note_names_spec demangle names []) as [m' [H1 [H2 _]]]; [intros x n Hx; discriminate|].
    rewrite Hm in H1; inversion H1; subst m'.
    destruct (sget m b) as [n|] eqn:E; [|reflexivity]. exfalso.
    pose proof (H2 b n E) as Hpos. pose proof (table_eq _ _ _ b Hm) as Ht. unfold table_get in Ht. rewrite E in Ht.
    rewrite Ht in Hpos. apply short_count_pos in Hpos as [c [Hc1 Hc2]]. exact (Hno c Hc1 Hc2). }
  assert (Hall : forall x, (exists x', shorten_node demangle m x = Ret x') \/
                           shorten_node demangle m x = Panic "HashMap index: no entry found for key").
  { intros x. unfold shorten_node. destruct (dehash_spec (demangle (nname x))) as [[y|] [Hr _]]; rewrite Hr; simpl; eauto.
    destruct (sget m y) as [n|]; [destruct (Nat.eqb n 1); eauto | right; reflexivity]. }
  unfold shorten.
  assert (Hl : forall l, In nd l -> shorten_nodes demangle m l = Panic "HashMap index: no entry found for key").
  { induction l as [|x l IH]; intros Hl; [destruct Hl|]. cbn [shorten_nodes].
    destruct (Hall x) as [[x' Hx]|Hx]; rewrite Hx; [|reflexivity]. cbn [bind].
    destruct Hl as [->|Hl].
    - exfalso. unfold shorten_node in Hx. apply dehash_iff in Hb. rewrite Hb in Hx. simpl in Hx. rewrite Hz in Hx. discriminate.
    - rewrite (IH Hl). reflexivity. }
  rewrite (Hl _ Hin). reflexivity.
Qed.

(** ** Outlined functions *)
Lemma u64_digits_spec s : forall acc, (acc < two64)%N ->
  ((exists n, u64_digits s acc = Some n) <->
   forallb is_digit s = true /\ (fold_left (fun a c => a * 10 + digit_val c) s acc < two64)%N).
Proof.
  assert (Hmono : forall s a, (a <= fold_left (fun a c => a * 10 + digit_val c) s a)%N).
  { induction s0 as [|c s0 IH]; intros a; cbn [fold_left]; [lia|]. etransitivity; [|apply IH]. lia. }
  induction s as [|c s IH]; intros acc Hacc; cbn [u64_digits forallb fold_left].
  - split; [intros _; split; [reflexivity | exact Hacc] | eauto].
  - destruct (N.ltb_spec (acc * 10) two64) as [H1|H1].
    + destruct (is_digit c); [|split; [intros [n Hn]; discriminate | intros [Hn _]; discriminate]].
      destruct (N.ltb_spec (acc * 10 + digit_val c) two64) as [H2|H2].
      * rewrite IH by exact H2. reflexivity.
      * split; [intros [n Hn]; discriminate|]. intros [_ H]. specialize (Hmono s (acc * 10 + digit_val c)%N). lia.
    + split; [intros [n Hn]; discriminate|]. intros [_ H]. specialize (Hmono s (acc * 10 + digit_val c)%N). lia.
Qed.

Lemma outlined_spec name : is_outlined_function name = true <-> outlined_name name.
Proof.
  unfold is_outlined_function, outlined_name.
  assert (H0 : (0 < two64)%N) by reflexivity.
  assert (Hdig : forall s, forallb is_digit s = true <-> forall c, In c s -> is_digit c = true) by (intros; apply forallb_forall).
  destruct (strip_prefix (lit "OUTLINED_FUNCTION_") name) as [number|] eqn:E.
  - apply strip_prefix_app in E.
    assert (Hu : (match u64_from_str number with Some _ => true | None => false end) = true <->
       exists sign digits, number = sign ++ digits /\ (sign = [] \/ sign = lit "+") /\ digits <> [] /\
         (forall c, In c digits -> is_digit c = true) /\ (digits_val digits < 2 ^ 64)%N).
    { assert (Hok : forall s, (exists n, u64_digits s 0 = Some n) <-> (forall c, In c s -> is_digit c = true) /\ (digits_val s < 2 ^ 64)%N).
      { intros s. rewrite u64_digits_spec by exact H0. rewrite Hdig. reflexivity. }
      unfold u64_from_str. destruct number as [|c rest].
      - split; [discriminate|]. intros [sign [digits [He [_ [Hd _]]]]]. symmetry in He. apply app_eq_nil in He as [_ He]. congruence.
      - destruct (Ascii.eqb_spec c "+") as [->|Hc].
        + destruct rest as [|c2 rest].
          * split; [discriminate|]. intros [sign [digits [He [[-> | ->] [Hd [Hdd _]]]]]].
            -- simpl in He. subst digits. specialize (Hdd "+"%char (or_introl eq_refl)). discriminate.
            -- simpl in He. inversion He. congruence.
          * split.
            -- intros H. exists (lit "+"), (c2 :: rest). split; [reflexivity|]. split; [right; reflexivity|]. split; [discriminate|].
               apply Hok. destruct (u64_digits (c2 :: rest) 0); [eauto | discriminate].
            -- intros [sign [digits [He [[-> | ->] [Hd [Hdd Hv]]]]]].
               ++ simpl in He. subst digits. specialize (Hdd "+"%char (or_introl eq_refl)). discriminate.
               ++ simpl in He. inversion He; subst digits. destruct (proj2 (Hok (c2 :: rest)) (conj Hdd Hv)) as [n ->]. reflexivity.
        + split.
          * intros H. exists [], (c :: rest). split; [reflexivity|]. split; [left; reflexivity|]. split; [discriminate|].
            apply Hok. destruct (u64_digits (c :: rest) 0); [eauto | discriminate].
          * intros [sign [digits [He [[-> | ->] [Hd [Hdd Hv]]]]]].
            -- simpl in He. subst digits. destruct (proj2 (Hok (c :: rest)) (conj Hdd Hv)) as [n ->]. reflexivity.
            -- simpl in He. inversion He. congruence. }
    rewrite Hu. split; intros [sign [digits [He H]]]; exists sign, digits; (split; [|exact H]).
    + rewrite E, He. reflexivity.
    + rewrite E in He. apply app_inv_head in He. exact He.
  - split; [discriminate|]. intros [sign [digits [He _]]].
    rewrite (proj2 (strip_prefix_app (lit "OUTLINED_FUNCTION_") name (sign ++ digits)) He) in E. discriminate.
Qed.

(** ** Version suffixes *)
Lemma rsplit_once_none p s : p <> [] -> (rsplit_once p s = None <-> forall a b, s <> a ++ p ++ b).
Proof.
  intros Hp. induction s as [|c s IH]; simpl.
  - split; [intros _ a b H; symmetry in H; apply app_eq_nil in H as [_ H]; apply app_eq_nil in H as [H _]; congruence | reflexivity].
  - destruct (rsplit_once p s) as [[b a]|].
    + split; [discriminate|]. intros H. destruct IH as [_ IH2].
      assert (Hn : Some (b, a) = None); [|discriminate]. apply IH2. intros x y Hs. apply (H (c :: x) y). simpl. congruence.
    + destruct (starts_with p (c :: s)) eqn:E.
      * split; [discriminate|]. intros H. apply starts_with_app in E as [r Hr]. destruct (H [] r Hr).
      * split; [|reflexivity]. intros _ a b Hs. destruct a as [|x a].
        -- simpl in Hs. assert (starts_with p (c :: s) = true) by (apply starts_with_app; eauto). congruence.
        -- simpl in Hs. inversion Hs; subst. destruct IH as [IH1 _]. eapply IH1; eauto.
Qed.

Lemma rsplit_once_last p s b a : p <> [] ->
  (forall x y, tl (p ++ a) <> x ++ p ++ y) -> s = b ++ p ++ a -> rsplit_once p s = Some (b, a).
Proof.
  intros Hp Hno ->. induction b as [|c b IH]; simpl.
  - destruct (p ++ a) as [|c s] eqn:E; [apply app_eq_nil in E as [E _]; congruence|].
    simpl in Hno |- *. rewrite (proj2 (rsplit_once_none p s Hp) Hno). rewrite <- E, starts_with_refl.
    rewrite skipn_app, skipn_all, Nat.sub_diag. reflexivity.
  - rewrite IH. reflexivity.
Qed.

Lemma strip_version_suffix name version :
  no_double_at name -> no_double_at (lit "@" ++ version) -> strip_version (name ++ lit "@@" ++ version) = name.
Proof.
  intros Hn Hv. unfold strip_version, rsplit_nth1.
  rewrite (rsplit_once_last (lit "@@") _ name version); [| discriminate | exact Hv | reflexivity].
  rewrite (proj2 (rsplit_once_none (lit "@@") name ltac:(discriminate)) Hn). reflexivity.
Qed.

Lemma strip_version_none name : no_double_at name -> strip_version name = name.
Proof.
  intros Hn. unfold strip_version, rsplit_nth1.
  rewrite (proj2 (rsplit_once_none (lit "@@") name ltac:(discriminate)) Hn). reflexivity.
Qed.

Lemma strip_version_two_suffixes a b c :
  no_double_at (lit "@" ++ b) -> no_double_at (lit "@" ++ c) ->
  strip_version (a ++ lit "@@" ++ b ++ lit "@@" ++ c) = b.
Proof.
  intros Hb Hc. unfold strip_version, rsplit_nth1.
  rewrite (rsplit_once_last (lit "@@") _ (a ++ lit "@@" ++ b) c); [| discriminate | exact Hc | rewrite <- !app_assoc; reflexivity].
  rewrite (rsplit_once_last (lit "@@") _ a b); [reflexivity | discriminate | exact Hb | reflexivity].
Qed.

Lemma default_methods_total demangle names : exists l, default_methods demangle names = Ret l.
Proof.
  induction names as [|n names [l IH]]; cbn [default_methods]; [now exists []|]. cbv zeta.
  assert (H : exists here, (if starts_with (lit "<") (demangle n) then
          match split_once (lit " as ") (demangle n) with
          | Some (_, rhs) => match split_once (lit ">::") rhs with
              | Some (trait_, rhs) => let* method := dehash rhs in Ret (match method with Some m => [trait_ ++ lit "::" ++ m] | None => [] end)
              | None => Ret [] end
          | None => Ret [] end else Ret []) = Ret here).
  { destruct (starts_with (lit "<") (demangle n)); [|now eexists]. destruct (split_once (lit " as ") (demangle n)) as [[? rhs]|]; [|now eexists].
    destruct (split_once (lit ">::") rhs) as [[t r]|]; [|now eexists]. destruct (dehash_spec r) as [x [-> _]]. now eexists. }
  destruct H as [here ->]. cbn [bind]. rewrite IH. now eexists.
Qed.

Lemma split_once_some p s a b : split_once p s = Some (a, b) -> first_at p s a b.
Proof.
  revert a b. induction s as [|c s IH]; intros a b; cbn [split_once].
  - destruct (starts_with p []) eqn:E; [|discriminate]. apply starts_with_app in E. destruct E as [r E]. intros H. injection H as <- <-.
    split; [|intros; cbn; lia]. symmetry in E. apply app_eq_nil in E. destruct E as [-> ->]. reflexivity.
  - destruct (starts_with p (c :: s)) eqn:E.
    + apply starts_with_app in E. destruct E as [r E]. intros H. injection H as <- <-. split; [|intros; cbn; lia].
      rewrite E, skipn_app, skipn_all, Nat.sub_diag. reflexivity.
    + destruct (split_once p s) as [[a0 b0]|] eqn:Es; [|discriminate]. intros H. injection H as <- <-. destruct (IH a0 b0 eq_refl) as [H1 H2]. split; [rewrite H1; reflexivity|].
      intros [|c' a'] b' H; cbn [app] in H; [rewrite H, starts_with_refl in E; discriminate E|]. injection H as <- H. cbn [length]. specialize (H2 a' b' H). lia.
Qed.
Lemma split_once_none p s a b : split_once p s = None -> s <> a ++ p ++ b.
Proof.
  revert a. induction s as [|c s IH]; intros a H E; cbn [split_once] in H.
  - destruct (starts_with p []) eqn:K; [discriminate H|]. symmetry in E. apply app_eq_nil in E. destruct E as [_ E]. apply app_eq_nil in E. destruct E as [-> ->]. discriminate K.
  - destruct (starts_with p (c :: s)) eqn:K; [discriminate H|]. destruct (split_once p s) as [[? ?]|] eqn:Es; [discriminate H|].
    destruct a as [|c' a]; cbn [app] in E; [rewrite E, starts_with_refl in K; discriminate K|]. injection E as <- E. exact (IH a eq_refl E).
Qed.
Lemma first_at_fun p s a b a' b' : first_at p s a b -> first_at p s a' b' -> a = a' /\ b = b'.
Proof.
  intros [E1 H1] [E2 H2]. assert (L : length a = length a') by (pose proof (H1 _ _ E2); pose proof (H2 _ _ E1); lia).
  rewrite E1 in E2. clear - E2 L. revert a' L E2. induction a as [|c a IH]; intros [|c' a'] L E; cbn [length app] in *; try discriminate L.
  - apply app_inv_head in E. exact (conj eq_refl E).
  - injection E as <- E. injection L as L. destruct (IH a' L E) as [-> ->]. exact (conj eq_refl eq_refl).
Qed.
Lemma split_once_iff p s a b : split_once p s = Some (a, b) <-> first_at p s a b.
Proof.
  split; [apply split_once_some|]. intros F. destruct (split_once p s) as [[a' b']|] eqn:E.
  - apply split_once_some in E. destruct (first_at_fun _ _ _ _ _ _ E F) as [-> ->]. reflexivity.
  - destruct (split_once_none p s a b E). exact (proj1 F).
Qed.
Lemma default_methods_spec demangle names : exists l, default_methods demangle names = Ret l /\
  forall m, In m l <-> exists n, In n names /\ trait_method (demangle n) m.
Proof.
  induction names as [|n names [l [IH Hl]]]; cbn [default_methods]; [exists []; split; [reflexivity|]; intros m; split; [intros [] | intros [n [[] _]]]|]. cbv zeta.
  assert (H : exists here, (if starts_with (lit "<") (demangle n) then
          match split_once (lit " as ") (demangle n) with
          | Some (_, rhs) => match split_once (lit ">::") rhs with
              | Some (trait_, rhs) => let* method := dehash rhs in Ret (match method with Some m => [trait_ ++ lit "::" ++ m] | None => [] end)
              | None => Ret [] end
          | None => Ret [] end else Ret []) = Ret here /\ forall m, In m here <-> trait_method (demangle n) m).
  { destruct (starts_with (lit "<") (demangle n)) eqn:E1.
    2:{ exists []. split; [reflexivity|]. intros m. split; [intros []|]. intros [r [_ [_ [_ [_ [_ [K _]]]]]]]. rewrite K, starts_with_refl in E1. discriminate E1. }
    apply starts_with_app in E1. destruct E1 as [r0 E1].
    destruct (split_once (lit " as ") (demangle n)) as [[ty rhs]|] eqn:E2.
    2:{ exists []. split; [reflexivity|]. intros m. split; [intros []|]. intros [r [ty [rhs [_ [_ [_ [_ [K _]]]]]]]]. apply split_once_iff in K. congruence. }
    pose proof E2 as F2. apply split_once_iff in F2.
    destruct (split_once (lit ">::") rhs) as [[t mh]|] eqn:E3.
    2:{ exists []. split; [reflexivity|]. intros m. split; [intros []|]. intros [r [ty' [rhs' [t [mh [meth [_ [K [K2 _]]]]]]]]].
        destruct (first_at_fun _ _ _ _ _ _ F2 K) as [_ <-]. apply split_once_iff in K2. congruence. }
    pose proof E3 as F3. apply split_once_iff in F3.
    destruct (dehash_spec mh) as [x [-> Hx]]. cbn [bind]. eexists. split; [reflexivity|]. intros m. split.
    - destruct x as [meth|]; [|intros []]. intros [<-|[]]. exists r0, ty, rhs, t, mh, meth. split; [exact E1|]. split; [exact F2|]. split; [exact F3|]. split; [apply Hx; reflexivity | reflexivity].
    - intros [r [ty' [rhs' [t' [mh' [meth [_ [K1 [K2 [K3 ->]]]]]]]]]]. destruct (first_at_fun _ _ _ _ _ _ F2 K1) as [_ <-]. destruct (first_at_fun _ _ _ _ _ _ F3 K2) as [<- <-].
      apply Hx in K3. rewrite K3. left. reflexivity. }
  destruct H as [here [-> Hh]]. cbn [bind]. rewrite IH. cbn [bind]. eexists. split; [reflexivity|]. intros m. rewrite in_app_iff, Hh, Hl. split.
  - intros [K|[k [K1 K2]]]; [exists n; split; [left; reflexivity | exact K] | exists k; split; [right; exact K1 | exact K2]].
  - intros [k [[<-|K1] K2]]; [left; exact K2 | right; exists k; split; [exact K1 | exact K2]].
Qed.
Lemma trait_method_example : trait_method (lit "<core::cell::Cell<T> as core::fmt::Debug>::fmt::h0123456789abcdef") (lit "core::fmt::Debug::fmt").
Proof.
  exists (lit "core::cell::Cell<T> as core::fmt::Debug>::fmt::h0123456789abcdef"), (lit "<core::cell::Cell<T>"), (lit "core::fmt::Debug>::fmt::h0123456789abcdef"),
    (lit "core::fmt::Debug"), (lit "fmt::h0123456789abcdef"), (lit "fmt").
  split; [reflexivity|]. split; [apply split_once_iff; reflexivity|]. split; [apply split_once_iff; reflexivity|]. split; [|reflexivity].
  split; [discriminate|]. exists (lit "0123456789abcdef"). split; reflexivity.
Qed.
Lemma no_double_at_by (s : str) : rsplit_once (lit "@@") s = None -> no_double_at s.
Proof. exact (proj1 (rsplit_once_none (lit "@@") s ltac:(discriminate))). Qed.
