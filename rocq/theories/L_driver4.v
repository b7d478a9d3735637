(** Lemmas on the driver: what is loaded. *)
From Coq Require Import Permutation Sorted.
From Verif Require Import M_base L_base M_names L_names M_thumb M_ty M_parse M_build M_run M_wrapper M_driver S_build S_driver L_build1 L_build7 L_driver1 L_driver2 L_path L_driver3.

(** ** Maps *)
Lemma bput_shape {A} (m : list (N * A)) k v :
  (exists a b, m = a ++ b /\ bput m k v = a ++ (k, v) :: b) \/ (exists a b u, m = a ++ (k, u) :: b /\ bput m k v = a ++ (k, v) :: b).
Proof.
  induction m as [|[x u] m IH]; cbn [bput]; [left; now exists [], []|]. destruct (N.ltb_spec k x) as [L|L]; [left; now exists [], ((x, u) :: m)|].
  destruct (N.eqb_spec x k) as [->|D]; [right; now exists [], m, u|].
  destruct IH as [[a [b [-> ->]]]|[a [b [u' [-> ->]]]]]; [left; now exists ((x, u) :: a), b | right; now exists ((x, u) :: a), b, u'].
Qed.
Lemma bput_keys {A} (m : list (N * A)) k v x : In x (map fst (bput m k v)) -> x = k \/ In x (map fst m).
Proof.
  destruct (bput_shape m k v) as [[a [b [-> ->]]]|[a [b [u [-> ->]]]]]; rewrite !map_app; cbn [map fst]; intros I; apply in_app_or in I; destruct I as [I|[I|I]]; auto;
    right; apply in_or_app; cbn; auto.
Qed.
Lemma bput_sorted {A} (m : list (N * A)) k v : StronglySorted N.lt (map fst m) -> StronglySorted N.lt (map fst (bput m k v)).
Proof.
  induction m as [|[x u] m IH]; cbn [bput map fst]; intros S; [repeat constructor|]. inversion S as [|? ? S' F]; subst. destruct (N.ltb_spec k x) as [L|L].
  - cbn [map fst]. constructor; [exact S|]. constructor; [exact L|]. eapply Forall_impl; [|exact F]. cbn. intros a La. lia.
  - destruct (N.eqb_spec x k) as [->|D]; [exact S|]. cbn [map fst]. constructor; [now apply IH|]. apply Forall_forall. intros y I. apply bput_keys in I. destruct I as [-> |I]; [lia|].
    rewrite Forall_forall in F. now apply F.
Qed.
Lemma sorted_nodup l : StronglySorted N.lt l -> NoDup l.
Proof. induction 1 as [|x l S IH F]; constructor; [|exact IH]. intros I. rewrite Forall_forall in F. specialize (F x I). lia. Qed.
Definition ldput {A} (m : list (N * A)) (kv : N * A) := bput m (N.ldiff (fst kv) 1) (snd kv).
Lemma ldput_sorted {A} (l : list (N * A)) : forall m, StronglySorted N.lt (map fst m) -> StronglySorted N.lt (map fst (fold_left ldput l m)).
Proof. induction l as [|x l IH]; intros m S; cbn [fold_left]; [exact S|]. apply IH. now apply bput_sorted. Qed.
Lemma flat_map_app' {A B} (f : A -> list B) a b : flat_map f (a ++ b) = flat_map f a ++ flat_map f b.
Proof. induction a as [|x a IH]; cbn; [reflexivity|]. now rewrite IH, app_assoc. Qed.
Lemma nodup_drop {A} (a b c : list A) : NoDup (a ++ b ++ c) -> NoDup (a ++ c).
Proof. induction b as [|x b IH]; cbn [app]; intros N; [exact N|]. apply IH. exact (NoDup_remove_1 a (b ++ c) x N). Qed.
Lemma nodup_perm {A} (a b : list A) : Permutation a b -> NoDup a -> NoDup b. Proof. apply Permutation_NoDup. Qed.
Lemma ldput_names l : forall m, NoDup (flat_map real_names m ++ flat_map real_names l) -> NoDup (flat_map real_names (fold_left ldput l m)).
Proof.
  induction l as [|[k v] l IH]; intros m N; cbn [fold_left flat_map] in *; [now rewrite app_nil_r in N|]. apply IH. unfold ldput. cbn [fst snd]. set (k' := N.ldiff k 1).
  assert (X : real_names (k', v) = real_names (k, v)) by reflexivity.
  destruct (bput_shape m k' v) as [[a [b [-> ->]]]|[a [b [u [-> ->]]]]]; rewrite !flat_map_app' in *; cbn [flat_map] in *; rewrite X.
  - eapply Permutation_NoDup; [|exact N]. rewrite <- !app_assoc. apply Permutation_app_head. rewrite !app_assoc. apply Permutation_app_tail. apply Permutation_app_comm.
  - rewrite <- !app_assoc in N. apply nodup_drop in N. eapply Permutation_NoDup; [|exact N]. rewrite <- !app_assoc. apply Permutation_app_head. rewrite !app_assoc. apply Permutation_app_tail. apply Permutation_app_comm.
Qed.
Lemma clear_thumb_ok t l : NoDup (map fst l) -> NoDup (flat_map real_names l) -> NoDup (map fst (clear_thumb t l)) /\ NoDup (flat_map real_names (clear_thumb t l)).
Proof.
  intros N1 N2. unfold clear_thumb. destruct (is_thumb t); [|now split]. change (fold_left _ l []) with (fold_left ldput l []). split.
  - apply sorted_nodup, ldput_sorted. constructor.
  - now apply ldput_names.
Qed.
Lemma even_ldiff a : N.ldiff a 1 = (2 * (a / 2))%N.
Proof. change 1%N with (N.ones 1). rewrite N.ldiff_ones_r, N.shiftl_mul_pow2, N.shiftr_div_pow2. change (2 ^ 1)%N with 2%N. lia. Qed.
Lemma bget_in {A} (m : list (N * A)) k v : NoDup (map fst m) -> (In (k, v) m <-> bget m k = Some v).
Proof.
  induction m as [|[x u] m IH]; cbn [In bget map fst]; intros N; [split; [tauto | discriminate]|]. inversion N as [|? ? N1 N2]; subst. destruct (N.eqb_spec x k) as [->|D].
  - split; [intros [E|I]; [now injection E as -> | destruct N1; apply in_map_iff; now exists (k, v)] | intros E; injection E as ->; now left].
  - rewrite <- (IH N2). split; [intros [E|I]; [now injection E as ->|exact I] | now right].
Qed.
Lemma ldput_last l a s : bget (fold_left ldput l []) a = Some s <-> at_even l a s.
Proof.
  induction l as [|[k v] l IH] using rev_ind.
  - split; [discriminate|]. intros [x [a0 [y [E _]]]]. destruct x; discriminate E.
  - rewrite fold_left_app. cbn [fold_left]. unfold ldput at 1. cbn [fst snd]. rewrite bget_bput, even_ldiff. destruct (N.eqb_spec (2 * (k / 2)) a) as [<-|D].
    + split.
      * intros E. injection E as ->. exists l, k, []. split; [reflexivity|]. split; [reflexivity|]. intros a1 s1 [].
      * intros [x [a0 [y [E [E1 H]]]]]. destruct y as [|z y] using rev_ind; [|clear IHy].
        -- apply app_inj_tail in E. destruct E as [_ E]. injection E as -> ->. reflexivity.
        -- rewrite app_comm_cons, app_assoc in E. apply app_inj_tail in E. destruct E as [_ <-]. destruct (H k v); [apply in_or_app; right; now left | reflexivity].
    + rewrite IH. split.
      * intros [x [a0 [y [-> [E1 H]]]]]. exists x, a0, (y ++ [(k, v)]). split; [now rewrite app_comm_cons, app_assoc|]. split; [exact E1|]. intros a1 s1 I. apply in_app_or in I.
        destruct I as [I|[I|[]]]; [now apply (H a1 s1) | injection I as <- _; now intros K; apply D].
      * intros [x [a0 [y [E [E1 H]]]]]. destruct y as [|z y] using rev_ind; [|clear IHy].
        -- apply app_inj_tail in E. destruct E as [_ E]. injection E as -> ->. now destruct D.
        -- rewrite app_comm_cons, app_assoc in E. apply app_inj_tail in E. destruct E as [-> <-]. exists x, a0, y. split; [reflexivity|]. split; [exact E1|].
           intros a1 s1 I. apply (H a1 s1). apply in_or_app. now left.
Qed.

(** ** The archive *)
Lemma contains_spec p s : contains p s = true <-> exists a b, s = a ++ p ++ b.
Proof.
  induction s as [|c s IH]; cbn [contains].
  - rewrite orb_false_r. split.
    + intros E. apply starts_with_app in E. destruct E as [r Er]. now exists [], r.
    + intros [a [b E]]. symmetry in E. apply app_eq_nil in E. destruct E as [_ E]. apply app_eq_nil in E. destruct E as [-> _]. reflexivity.
  - rewrite orb_true_iff, IH. split.
    + intros [E|[a [b ->]]]; [|now exists (c :: a), b]. apply starts_with_app in E. destruct E as [r Er]. now exists [], r.
    + intros [[|x a] [b E]]; [left; cbn in E; rewrite E; apply starts_with_refl | right; injection E as -> ->; now exists a, b].
Qed.
Lemma ends_spec p s : ends_with p s = true <-> exists a, s = a ++ p.
Proof.
  unfold ends_with. rewrite starts_with_app. split; intros [r E].
  - exists (rev r). rewrite <- (rev_involutive s), E, rev_app_distr, rev_involutive. reflexivity.
  - exists (rev r). now rewrite E, rev_app_distr.
Qed.
Lemma builtins_object_spec m : mb_utf8 m && (contains compiler_builtins (mb_id m) && ends_with (lit ".o") (mb_id m)) = true <-> builtins_object m.
Proof. rewrite !andb_true_iff, contains_spec, ends_spec. reflexivity. Qed.
Lemma archive_spec w : forall ms r, archive_sizes w ms = Ret r -> exists ms', ms = map Ret ms' /\ object_sizes w ms' (concat r).
Proof.
  induction ms as [|m ms IH]; cbn [archive_sizes]; intros r E; [injection E as <-; exists []; split; [reflexivity | constructor]|].
  apply bind_Ret in E. destruct E as [m' [-> E]]. destruct (mb_utf8 m' && _) eqn:B.
  - apply bind_Ret in E. destruct E as [buf [E1 E]]. apply bind_Ret in E. destruct E as [s [E2 E]]. apply bind_Ret in E. destruct E as [rest [E3 E]]. injection E as <-.
    destruct (IH rest E3) as [ms' [-> O]]. exists (m' :: ms'). split; [reflexivity|]. cbn [concat]. apply builtins_object_spec in B. now apply os_take with buf.
  - destruct (IH r E) as [ms' [-> O]]. exists (m' :: ms'). split; [reflexivity|]. apply os_skip; [|exact O]. intros K. apply builtins_object_spec in K. congruence.
Qed.
Lemma pick_all prefix : forall es best r, pick_ll prefix es best = Ret r -> exists es', es = map Ret es'.
Proof.
  induction es as [|e es IH]; cbn [pick_ll]; intros best r E; [now exists []|]. apply bind_Ret in E. destruct E as [e' [-> E]].
  assert (X : exists best', pick_ll prefix es best' = Ret r).
  { destruct (stem_ext (en_name e')) as [[stem ext]|]; [|now exists best]. destruct (str_eqb ext (lit "ll")); [|now exists best]. destruct (negb (en_utf8 e')); [discriminate E|].
    destruct (starts_with prefix stem); [|now exists best]. apply bind_Ret in E. destruct E as [t [_ E]]. destruct best as [[n mrm]|]; [|now eexists; exact E].
    destruct (mrm <? t)%N; now eexists; exact E. }
  destruct X as [best' X]. destruct (IH _ _ X) as [es' ->]. now exists (e' :: es').
Qed.

(** ** Loading *)
Lemma parse_ir_ret what path text x : parse_ir what path text = Ret x -> parse text = Parsed x.
Proof. unfold parse_ir. destruct (parse text); intros E; try discriminate E. now injection E as ->. Qed.
Lemma c54_declares items : NoDup (map fst (collect_declares items)) /\ (forall n s, In (n, s) (collect_declares items) <-> last_decl items n s).
Proof.
  rewrite collect_declares_alt. pose proof (put_fold_nodup _ _ kv_decl items) as ND. split; [exact ND|]. intros n d. rewrite <- (sget_In _ _ _ ND), put_fold_last. split.
  - intros [a [x [b [K1 [K2 K3]]]]]. destruct x; try discriminate K2. injection K2 as -> ->. exists a, b. split; [exact K1|]. intros s' I. exact (K3 _ s' I eq_refl).
  - intros [a [b [K1 K2]]]. exists a, (IDeclare n d), b. split; [exact K1|]. split; [reflexivity|]. intros y v I K. destruct y; try discriminate K. injection K as -> ->. exact (K2 _ I).
Qed.
(** ** Targets and mapping symbols *)
Lemma classify_kind t : target_kind t (classify_target t).
Proof.
  unfold classify_target. destruct (str_eqb t (lit "thumbv6m-none-eabi")) eqn:E1; [apply str_eqb_eq in E1; subst; apply tk_v6|].
  destruct (str_eqb t (lit "thumbv7m-none-eabi")) eqn:E2; [apply str_eqb_eq in E2; subst; apply tk_v7; cbn; tauto|].
  destruct (str_eqb t (lit "thumbv7em-none-eabi")) eqn:E3; [apply str_eqb_eq in E3; subst; apply tk_v7; cbn; tauto|].
  destruct (str_eqb t (lit "thumbv7em-none-eabihf")) eqn:E4; [apply str_eqb_eq in E4; subst; apply tk_v7; cbn; tauto|].
  apply tk_other. intros I. cbn [map In] in I. destruct I as [<-|[<-|[<-|[<-|[]]]]];
    [rewrite str_eqb_refl in E1; discriminate E1 | rewrite str_eqb_refl in E2; discriminate E2
    | rewrite str_eqb_refl in E3; discriminate E3 | rewrite str_eqb_refl in E4; discriminate E4].
Qed.
Lemma markers_ok l : markers l (somes (map tag_of l)).
Proof.
  induction l as [|[a n] l IH]; [apply ma_nil|]. cbn [map somes]. unfold tag_of at 1. cbn [fst snd].
  destruct (starts_with (lit "$d") n) eqn:E1.
  { apply starts_with_app in E1. destruct E1 as [r ->]. apply ma_data. exact IH. }
  destruct (starts_with (lit "$t") n) eqn:E2.
  { apply starts_with_app in E2. destruct E2 as [r ->]. apply ma_thumb. exact IH. }
  apply ma_skip; [| | exact IH]; cbn [snd]; intros r ->.
  - rewrite (proj2 (starts_with_app _ _)) in E1 by (now exists r). discriminate E1.
  - rewrite (proj2 (starts_with_app _ _)) in E2 by (now exists r). discriminate E2.
Qed.
Lemma insert_tag_in t l x : In x (map fst (insert_tag t l)) -> x = fst t \/ In x (map fst l).
Proof.
  induction l as [|u l IH]; cbn [insert_tag]; [intros [<-|[]]; now left|]. destruct (fst t <? fst u)%N; cbn [map In]; [intros [<-|I]; tauto|].
  intros [<-|I]; [tauto|]. destruct (IH I); tauto.
Qed.
Lemma insert_tag_sorted t l : StronglySorted N.le (map fst l) -> StronglySorted N.le (map fst (insert_tag t l)).
Proof.
  induction l as [|u l IH]; intros S; cbn [insert_tag]; [repeat constructor|]. cbn [map] in S. inversion S as [|? ? S1 S2]; subst.
  destruct (N.ltb_spec (fst t) (fst u)) as [L|L]; cbn [map].
  - constructor; [exact S|]. constructor; [lia|]. apply (Forall_impl _ (P := N.le (fst u))); [intros z; lia | exact S2].
  - constructor; [exact (IH S1)|]. apply Forall_forall. intros z I. apply insert_tag_in in I. destruct I as [->|I]; [exact L|].
    exact (proj1 (Forall_forall _ _) S2 z I).
Qed.
Lemma insert_tag_filter t l a : StronglySorted N.le (map fst l) ->
  filter (fun u => fst u =? a)%N (insert_tag t l) = filter (fun u => fst u =? a)%N (l ++ [t]).
Proof.
  induction l as [|u l IH]; intros S; cbn [insert_tag]; [reflexivity|]. cbn [map] in S. inversion S as [|? ? S1 S2]; subst.
  destruct (N.ltb_spec (fst t) (fst u)) as [L|L]; [|cbn [filter app]; rewrite (IH S1); reflexivity].
  destruct (N.eqb_spec (fst t) a) as [<-|Ne].
  - assert (Nn : forall m : list (N * tag), Forall (N.le (fst u)) (map fst m) -> filter (fun v => fst v =? fst t)%N m = []).
    { clear - L. induction m as [|v m IH]; intros F; [reflexivity|]. cbn [map] in F. inversion F; subst. cbn [filter].
      rewrite (proj2 (N.eqb_neq _ _)) by lia. apply IH. assumption. }
    rewrite filter_app. cbn [filter]. rewrite N.eqb_refl, (proj2 (N.eqb_neq (fst u) (fst t))) by lia. rewrite (Nn l S2). reflexivity.
  - rewrite filter_app. cbn [filter]. rewrite (proj2 (N.eqb_neq (fst t) a)) by exact Ne. rewrite app_nil_r. reflexivity.
Qed.
Lemma collect_tags_ok symtab : tag_table symtab (collect_tags symtab).
Proof.
  exists (somes (map tag_of symtab)). split; [apply markers_ok|]. unfold collect_tags. generalize (somes (map tag_of symtab)) as ts.
  assert (K : forall ts acc, StronglySorted N.le (map fst acc) ->
    StronglySorted N.le (map fst (fold_left (fun l t => insert_tag t l) ts acc)) /\
    forall a, filter (fun t => fst t =? a)%N (fold_left (fun l t => insert_tag t l) ts acc) = filter (fun t => fst t =? a)%N (acc ++ ts)).
  { induction ts as [|t ts IH]; intros acc S; cbn [fold_left]; [rewrite app_nil_r; split; [exact S | reflexivity]|].
    destruct (IH _ (insert_tag_sorted t acc S)) as [A B]. split; [exact A|]. intros a. rewrite B, filter_app, (insert_tag_filter t acc a S), !filter_app.
    cbn [filter]. destruct (fst t =? a)%N; rewrite <- app_assoc; reflexivity. }
  intros ts. exact (K ts [] (SSorted_nil _)).
Qed.

Lemma object_of_ll name : name <> [] -> object_of (name ++ lit ".ll") = name ++ lit ".o".
Proof. intros N. unfold object_of. now rewrite (proj2 (stem_ext_ll (name ++ lit ".ll") name) (conj N eq_refl)). Qed.
Lemma pick_inspects file es : (exists r, pick_ll (replace_char "-" "_" file ++ lit "-") (map Ret es) None = Ret r) <-> (forall e, In e es -> inspected (crate_name file) e).
Proof.
  change (replace_char "-" "_" file) with (crate_name file). generalize (crate_name file) as crate. intros crate. generalize (@None (str * N)) as best.
  assert (K : forall e, (forall stem, stem_ext (en_name e) = Some (stem, lit "ll") -> en_utf8 e = true /\ (starts_with (crate ++ lit "-") stem = true -> exists t, en_time e = Ret t)) <-> inspected crate e).
  { intros e. split.
    - intros H stem N E. destruct (H stem) as [H1 H2]; [apply stem_ext_ll; split; assumption|]. split; [exact H1|]. intros [h F]. apply H2. apply starts_with_app. exists h.
      rewrite E in F. rewrite !app_assoc in F. apply app_inv_tail in F. exact F.
    - intros H stem E. apply stem_ext_ll in E. destruct E as [N E]. destruct (H stem N E) as [H1 H2]. split; [exact H1|]. intros S. apply H2. apply starts_with_app in S. destruct S as [h S]. exists h. now rewrite E, S, <- !app_assoc. }
  induction es as [|e es IH]; intros best; [split; [intros _ e [] | intros _; exists best; reflexivity]|]. cbn [map pick_ll bind].
  assert (T : (forall x, In x (e :: es) -> inspected crate x) <-> inspected crate e /\ (forall x, In x es -> inspected crate x)).
  { split; [intros H; split; [apply H; now left | intros x I; apply H; now right] | intros [H1 H2] x [<-|I]; auto]. }
  rewrite T, <- K. destruct (stem_ext (en_name e)) as [[stem ext]|] eqn:E.
  - destruct (str_eqb ext (lit "ll")) eqn:X.
    + apply str_eqb_eq in X. subst ext. destruct (en_utf8 e) eqn:U; cbn [negb].
      * destruct (starts_with (crate ++ lit "-") stem) eqn:S.
        -- destruct (en_time e) as [t| | |] eqn:Q; cbn [bind]; try (split; [intros [r R]; discriminate R | intros [H _]; destruct (H stem eq_refl) as [_ H']; destruct (H' S) as [t Z]; discriminate Z]).
           assert (Y : (forall s, Some (stem, lit "ll") = Some (s, lit "ll") -> true = true /\ (starts_with (crate ++ lit "-") s = true -> exists t0, Ret t = Ret t0))) by (intros; split; [reflexivity | intros; now exists t]).
           destruct best as [[n m]|]; [destruct (m <? t)%N|]; rewrite IH; tauto.
        -- rewrite IH. assert (Y : forall s, Some (stem, lit "ll") = Some (s, lit "ll") -> true = true /\ (starts_with (crate ++ lit "-") s = true -> exists t, en_time e = Ret t)) by (intros s Z; injection Z as <-; split; [reflexivity | congruence]). tauto.
      * split; [intros [r R]; discriminate R|]. intros [H _]. destruct (H stem eq_refl) as [Z _]. discriminate Z.
    + rewrite IH. assert (Y : forall s, Some (stem, ext) = Some (s, lit "ll") -> en_utf8 e = true /\ (starts_with (crate ++ lit "-") s = true -> exists t, en_time e = Ret t)) by (intros s Z; injection Z as <- ->; rewrite str_eqb_refl in X; discriminate X). tauto.
  - rewrite IH. assert (Y : forall s, None = Some (s, lit "ll") -> en_utf8 e = true /\ (starts_with (crate ++ lit "-") s = true -> exists t, en_time e = Ret t)) by (intros s Z; discriminate Z). tauto.
Qed.
Lemma context_ret {A} what path (x : outcome A) a : context what path x = Ret a <-> x = Ret a.
Proof. destruct x; cbn; split; intros E; try discriminate E; exact E. Qed.
Lemma read_text w f text : read_to_string w f = Ret text <-> text_file w f text.
Proof.
  unfold read_to_string, text_file. destruct (w_read w f) as [s| | |]; cbn [bind]; try (split; [discriminate | intros [E _]; discriminate E]).
  destruct (w_utf8 w s) eqn:U; split.
  - intros E. injection E as <-. now split.
  - now intros [E _].
  - discriminate.
  - intros [E K]. injection E as <-. congruence.
Qed.
Theorem loaded w target file rlib ll p : sane w -> load w target file rlib ll = Ret p -> wf_prog p /\ analyses w target file rlib ll p.
Proof.
  intros S E. rewrite load_flat in E. cbv zeta in E. apply bind_Ret in E. destruct E as [path [Ep E]]. apply bind_Ret in E. destruct E as [elf [Eelf E]]. apply context_ret in Eelf.
  set (dd := match a_bin (w_args w) with Some _ => join (parent path) (lit "deps") | None => parent path end) in E. apply bind_Ret in E. destruct E as [dir [Edir E]].
  apply bind_Ret in E. destruct E as [best [Ebest E]]. destruct best as [[ll_name time]|]; [|discriminate E].
  apply bind_Ret in E. destruct E as [text [Etext E]]. apply context_ret, read_text in Etext. apply bind_Ret in E. destruct E as [obj [Eobj E]]. apply context_ret in Eobj.
  apply bind_Ret in E. destruct E as [btext [Ebtext E]]. apply context_ret, read_text in Ebtext.
  apply bind_Ret in E. destruct E as [items [Eit E]]. apply bind_Ret in E. destruct E as [bitems [Ebit E]].
  apply bind_Ret in E. destruct E as [sizes [Esz E]]. apply bind_Ret in E. destruct E as [ms [Ems E]]. apply context_ret in Ems. apply bind_Ret in E. destruct E as [more [Emore E]].
  apply bind_Ret in E. destruct E as [el [Eel E]]. apply bind_Ret in E. destruct E as [symtab [Esym E]]. injection E as <-.
  destruct (sane_elf w S elf el Eel) as [N1 N2]. destruct (clear_thumb_ok (classify_target target) (el_defined el) N1 N2) as [N3 N4].
  pose proof (sane_defines w S (collect_defines (items ++ bitems))) as P. destruct (c54_defines (items ++ bitems)) as [D1 D2]. destruct (c54_declares (items ++ bitems)) as [C1 C2].
  destruct (c54_sizes (sizes :: more)) as [Z1 Z2]. split.
  - constructor; cbn; try assumption.
    + apply (Permutation_NoDup (l := map fst (collect_defines (items ++ bitems)))); [|exact D1]. apply Permutation_map. now symmetry.
    + intros n d I. apply (Permutation_in _ P) in I. apply D2 in I. tauto.
  - destruct (pick_all _ _ _ _ Ebest) as [es ->]. pose proof (c49_newest file es _ Ebest) as Ch. cbv beta iota in Ch. destruct (archive_spec w ms more Emore) as [ms' [-> O]].
    assert (Ins : forall e, In e es -> inspected (crate_name file) e) by (apply pick_inspects; now eexists; exact Ebest).
    assert (Dir : ir_dir (w_args w) (parent path) dd) by (unfold ir_dir, dd; destruct (a_bin (w_args w)); [apply join_inside | reflexivity]).
    assert (F : exists name, ll_name = name ++ lit ".ll" /\ name <> []).
    { destruct Ch as [a [e [b [_ [_ [_ [[h ->] _]]]]]]]. exists (crate_name file ++ lit "-" ++ h). split; [now rewrite !app_assoc|]. intros K. apply app_eq_nil in K. destruct K as [_ K]. discriminate K. }
    destruct F as [name [-> Nn]]. rewrite (object_of_ll name Nn) in Eobj.
    eapply (analyses_intro w target file rlib ll _ path (parent path) dd _ _ es name) with (1 := Ep) (2 := holder_parent path) (3 := Dir) (4 := Edir) (5 := Ins) (6 := Ch)
      (7 := join_inside dd (name ++ lit ".ll")) (8 := join_inside dd (name ++ lit ".o")); try eassumption; cbn [pg_defines pg_declares pg_sizes pg_target pg_defined pg_tags pg_text].
    + exact (parse_ir_ret _ _ _ _ Eit).
    + exact (parse_ir_ret _ _ _ _ Ebit).
    + intros n f. rewrite <- (D2 n f). split; apply Permutation_in; [exact P | now symmetry].
    + cbn [pg_undefined]. induction (el_undefined el) as [|u us IH]; cbn [map]; constructor; [|exact IH]. intros n' [K1 [->|[v [-> K2]]]]; [now apply strip_version_none | now apply strip_version_suffix].
    + apply classify_kind.
    + intros T. unfold clear_thumb. now rewrite T.
    + intros T. rewrite T in *. split; [|split; [exists symtab; split; [exact Esym | apply collect_tags_ok] | reflexivity]]. intros a s. rewrite (bget_in _ _ _ N3). unfold clear_thumb. rewrite T. apply ldput_last.
Qed.
