(** Lemmas on the command line. *)
From Verif Require Import M_base L_base M_run M_wrapper M_driver M_cli S_cli.

Lemma word_dashed v : word v <-> dashed v = false.
Proof.
  unfold word, dashed. destruct v as [|c [|d v]].
  - split; [reflexivity|]. intros _ r E. discriminate E.
  - split; [reflexivity|]. intros _ r E. injection E as _ E. now subst.
  - destruct (Ascii.eqb_spec c "-") as [->|N].
    + split; [|discriminate]. intros H. specialize (H (d :: v) eq_refl). discriminate H.
    + split; [reflexivity|]. intros _ r E. injection E as E _. now destruct N.
Qed.
Lemma dashed_long x : x <> [] -> dashed (lit "--" ++ x) = true.
Proof. reflexivity. Qed.

(** ** One setting *)
Definition ap (utf8 : str -> bool) (s : setting) (r : reading) : step :=
  match s with
  | STarget v => set_value utf8 VTarget v r
  | SBin v => set_value utf8 VBin v r
  | SExample v => set_value utf8 VExample v r
  | SFeatures v => set_value utf8 VFeatures v r
  | SFormat Dot => set_value utf8 VFormat (lit "dot") r
  | SFormat Top => set_value utf8 VFormat (lit "top") r
  | SAll => set_switch WAll r
  | SVerbose => set_switch WVerbose r
  | SStart v => set_start utf8 v r
  end.
Definition stands (ss : list setting) (r : reading) : Prop := says ss (rd_args r) /\ (rd_format r = true <-> exists f, In (SFormat f) ss).
(** The words of the setting are valid. *)
Definition valid (utf8 : str -> bool) (s : setting) : Prop :=
  match s with
  | STarget v | SBin v | SExample v | SFeatures v | SStart v => utf8 v = true
  | SFormat Dot => utf8 (lit "dot") = true
  | SFormat Top => utf8 (lit "top") = true
  | SAll | SVerbose => True
  end.
Lemma spelled_valid utf8 s w : spelled utf8 s w -> valid utf8 s.
Proof. intros H. inversion H as [? ? ? N|? ? ? N| | | |]; subst; try inversion N; subst; cbn; auto. Qed.

Lemma kind_in ss s : In (kind s) (map kind ss) <-> exists t, In t ss /\ kind t = kind s.
Proof. rewrite in_map_iff. split; intros [t [A B]]; exists t; now split. Qed.

Lemma ap_new utf8 ss r s : stands ss r -> valid utf8 s -> ~ In (kind s) (map kind ss) -> exists r', ap utf8 s r = Next r' /\ stands (ss ++ [s]) r'.
Proof.
  intros [[St Sb Se Sf Sm Sd Sa Sv Ss] Fm] V K.
  assert (N : forall t, In t ss -> kind t <> kind s) by (intros t I E; apply K, kind_in; now exists t).
  assert (Nn : forall (o : option str) (f : str -> setting), (forall v, o = Some v <-> In (f v) ss) -> (forall v, kind (f v) = kind s) -> o = None).
  { intros [x|] f H Hk; [|reflexivity]. exfalso. exact (N _ (proj1 (H x) eq_refl) (Hk x)). }
  destruct s as [v|v|v|v|f| | |v]; cbn [ap valid] in *; unfold set_value, set_switch, set_start; rewrite ?V; cbn [negb].
  - rewrite (Nn _ _ St) by reflexivity. cbn [is_some]. eexists. split; [reflexivity|]. split; [constructor; cbn|cbn].
    + intros u. rewrite in_app_iff. cbn [In]. split; [intros E; injection E as ->; auto|]. intros [I|[E|[]]]; [destruct (N _ I); reflexivity | now injection E as ->].
    + intros u. rewrite Sb, in_app_iff. cbn. intuition discriminate.
    + intros u. rewrite Se, in_app_iff. cbn. intuition discriminate.
    + intros u. rewrite Sf, in_app_iff. cbn. intuition discriminate.
    + intros u. rewrite in_app_iff. cbn. intros [I|[E|[]]]; [now apply Sm | discriminate].
    + intros H. apply Sd. intros u I. apply (H u). rewrite in_app_iff. now left.
    + rewrite Sa, in_app_iff. cbn. intuition discriminate.
    + rewrite Sv, in_app_iff. cbn. intuition discriminate.
    + intros u. rewrite Ss, in_app_iff. cbn. intuition discriminate.
    + rewrite Fm. split; intros [u I]; exists u; [rewrite in_app_iff; now left|]. rewrite in_app_iff in I. destruct I as [I|[I|[]]]; [exact I | discriminate].
  - rewrite (Nn _ _ Sb) by reflexivity. cbn [is_some]. eexists. split; [reflexivity|]. split; [constructor; cbn|cbn].
    + intros u. rewrite St, in_app_iff. cbn. intuition discriminate.
    + intros u. rewrite in_app_iff. cbn [In]. split; [intros E; injection E as ->; auto|]. intros [I|[E|[]]]; [destruct (N _ I); reflexivity | now injection E as ->].
    + intros u. rewrite Se, in_app_iff. cbn. intuition discriminate.
    + intros u. rewrite Sf, in_app_iff. cbn. intuition discriminate.
    + intros u. rewrite in_app_iff. cbn. intros [I|[E|[]]]; [now apply Sm | discriminate].
    + intros H. apply Sd. intros u I. apply (H u). rewrite in_app_iff. now left.
    + rewrite Sa, in_app_iff. cbn. intuition discriminate.
    + rewrite Sv, in_app_iff. cbn. intuition discriminate.
    + intros u. rewrite Ss, in_app_iff. cbn. intuition discriminate.
    + rewrite Fm. split; intros [u I]; exists u; [rewrite in_app_iff; now left|]. rewrite in_app_iff in I. destruct I as [I|[I|[]]]; [exact I | discriminate].
  - rewrite (Nn _ _ Se) by reflexivity. cbn [is_some]. eexists. split; [reflexivity|]. split; [constructor; cbn|cbn].
    + intros u. rewrite St, in_app_iff. cbn. intuition discriminate.
    + intros u. rewrite Sb, in_app_iff. cbn. intuition discriminate.
    + intros u. rewrite in_app_iff. cbn [In]. split; [intros E; injection E as ->; auto|]. intros [I|[E|[]]]; [destruct (N _ I); reflexivity | now injection E as ->].
    + intros u. rewrite Sf, in_app_iff. cbn. intuition discriminate.
    + intros u. rewrite in_app_iff. cbn. intros [I|[E|[]]]; [now apply Sm | discriminate].
    + intros H. apply Sd. intros u I. apply (H u). rewrite in_app_iff. now left.
    + rewrite Sa, in_app_iff. cbn. intuition discriminate.
    + rewrite Sv, in_app_iff. cbn. intuition discriminate.
    + intros u. rewrite Ss, in_app_iff. cbn. intuition discriminate.
    + rewrite Fm. split; intros [u I]; exists u; [rewrite in_app_iff; now left|]. rewrite in_app_iff in I. destruct I as [I|[I|[]]]; [exact I | discriminate].
  - rewrite (Nn _ _ Sf) by reflexivity. cbn [is_some]. eexists. split; [reflexivity|]. split; [constructor; cbn|cbn].
    + intros u. rewrite St, in_app_iff. cbn. intuition discriminate.
    + intros u. rewrite Sb, in_app_iff. cbn. intuition discriminate.
    + intros u. rewrite Se, in_app_iff. cbn. intuition discriminate.
    + intros u. rewrite in_app_iff. cbn [In]. split; [intros E; injection E as ->; auto|]. intros [I|[E|[]]]; [destruct (N _ I); reflexivity | now injection E as ->].
    + intros u. rewrite in_app_iff. cbn. intros [I|[E|[]]]; [now apply Sm | discriminate].
    + intros H. apply Sd. intros u I. apply (H u). rewrite in_app_iff. now left.
    + rewrite Sa, in_app_iff. cbn. intuition discriminate.
    + rewrite Sv, in_app_iff. cbn. intuition discriminate.
    + intros u. rewrite Ss, in_app_iff. cbn. intuition discriminate.
    + rewrite Fm. split; intros [u I]; exists u; [rewrite in_app_iff; now left|]. rewrite in_app_iff in I. destruct I as [I|[I|[]]]; [exact I | discriminate].
  - assert (Fn : rd_format r = false). { destruct (rd_format r); [|reflexivity]. destruct (proj1 Fm eq_refl) as [u I]. destruct (N _ I). reflexivity. }
    assert (G : forall x, format_of x = Some f -> utf8 x = true -> ap utf8 (SFormat f) r = set_value utf8 VFormat x r -> exists r', ap utf8 (SFormat f) r = Next r' /\ stands (ss ++ [SFormat f]) r').
    { intros x Ef Ux ->. unfold set_value. rewrite Ux, Ef, Fn. cbn [negb]. eexists. split; [reflexivity|]. split; [constructor; cbn|cbn].
      + intros u. rewrite St, in_app_iff. cbn. intuition discriminate.
      + intros u. rewrite Sb, in_app_iff. cbn. intuition discriminate.
      + intros u. rewrite Se, in_app_iff. cbn. intuition discriminate.
      + intros u. rewrite Sf, in_app_iff. cbn. intuition discriminate.
      + intros u. rewrite in_app_iff. cbn. intros [I|[E|[]]]; [destruct (N _ I); reflexivity | now injection E].
      + intros H. destruct (H f). rewrite in_app_iff. right. now left.
      + rewrite Sa, in_app_iff. cbn. intuition discriminate.
      + rewrite Sv, in_app_iff. cbn. intuition discriminate.
      + intros u. rewrite Ss, in_app_iff. cbn. intuition discriminate.
      + split; [|reflexivity]. intros _. exists f. rewrite in_app_iff. right. now left. }
    destruct f; [exact (G (lit "dot") eq_refl V eq_refl) | exact (G (lit "top") eq_refl V eq_refl)].
  - assert (Fa : a_all_features (rd_args r) = false). { destruct (a_all_features (rd_args r)); [|reflexivity]. destruct (N _ (proj1 Sa eq_refl)). reflexivity. }
    rewrite Fa. eexists. split; [reflexivity|]. split; [constructor; cbn|cbn].
    + intros u. rewrite St, in_app_iff. cbn. intuition discriminate.
    + intros u. rewrite Sb, in_app_iff. cbn. intuition discriminate.
    + intros u. rewrite Se, in_app_iff. cbn. intuition discriminate.
    + intros u. rewrite Sf, in_app_iff. cbn. intuition discriminate.
    + intros u. rewrite in_app_iff. cbn. intros [I|[E|[]]]; [now apply Sm | discriminate].
    + intros H. apply Sd. intros u I. apply (H u). rewrite in_app_iff. now left.
    + rewrite in_app_iff. cbn. intuition auto.
    + rewrite Sv, in_app_iff. cbn. intuition discriminate.
    + intros u. rewrite Ss, in_app_iff. cbn. intuition discriminate.
    + rewrite Fm. split; intros [u I]; exists u; [rewrite in_app_iff; now left|]. rewrite in_app_iff in I. destruct I as [I|[I|[]]]; [exact I | discriminate].
  - assert (Fa : a_verbose (rd_args r) = false). { destruct (a_verbose (rd_args r)); [|reflexivity]. destruct (N _ (proj1 Sv eq_refl)). reflexivity. }
    rewrite Fa. eexists. split; [reflexivity|]. split; [constructor; cbn|cbn].
    + intros u. rewrite St, in_app_iff. cbn. intuition discriminate.
    + intros u. rewrite Sb, in_app_iff. cbn. intuition discriminate.
    + intros u. rewrite Se, in_app_iff. cbn. intuition discriminate.
    + intros u. rewrite Sf, in_app_iff. cbn. intuition discriminate.
    + intros u. rewrite in_app_iff. cbn. intros [I|[E|[]]]; [now apply Sm | discriminate].
    + intros H. apply Sd. intros u I. apply (H u). rewrite in_app_iff. now left.
    + rewrite Sa, in_app_iff. cbn. intuition discriminate.
    + rewrite in_app_iff. cbn. intuition auto.
    + intros u. rewrite Ss, in_app_iff. cbn. intuition discriminate.
    + rewrite Fm. split; intros [u I]; exists u; [rewrite in_app_iff; now left|]. rewrite in_app_iff in I. destruct I as [I|[I|[]]]; [exact I | discriminate].
  - rewrite (Nn _ _ Ss) by reflexivity. cbn [is_some]. eexists. split; [reflexivity|]. split; [constructor; cbn|cbn].
    + intros u. rewrite St, in_app_iff. cbn. intuition discriminate.
    + intros u. rewrite Sb, in_app_iff. cbn. intuition discriminate.
    + intros u. rewrite Se, in_app_iff. cbn. intuition discriminate.
    + intros u. rewrite Sf, in_app_iff. cbn. intuition discriminate.
    + intros u. rewrite in_app_iff. cbn. intros [I|[E|[]]]; [now apply Sm | discriminate].
    + intros H. apply Sd. intros u I. apply (H u). rewrite in_app_iff. now left.
    + rewrite Sa, in_app_iff. cbn. intuition discriminate.
    + rewrite Sv, in_app_iff. cbn. intuition discriminate.
    + intros u. rewrite in_app_iff. cbn [In]. split; [intros E; injection E as ->; auto|]. intros [I|[E|[]]]; [destruct (N _ I); reflexivity | now injection E as ->].
    + rewrite Fm. split; intros [u I]; exists u; [rewrite in_app_iff; now left|]. rewrite in_app_iff in I. destruct I as [I|[I|[]]]; [exact I | discriminate].
Qed.
Lemma ap_again utf8 ss r s : stands ss r -> In (kind s) (map kind ss) -> ap utf8 s r = Stop Refused.
Proof.
  intros [[St Sb Se Sf Sm Sd Sa Sv Ss] Fm] K. apply kind_in in K. destruct K as [t [I E]].
  destruct s as [v|v|v|v|f| | |v], t as [u|u|u|u|g| | |u]; try discriminate E; cbn [ap]; unfold set_value, set_switch, set_start.
  - apply St in I. rewrite I. now destruct (utf8 v).
  - apply Sb in I. rewrite I. now destruct (utf8 v).
  - apply Se in I. rewrite I. now destruct (utf8 v).
  - apply Sf in I. rewrite I. now destruct (utf8 v).
  - assert (F : rd_format r = true) by (apply Fm; now exists g). rewrite F. destruct f; [destruct (utf8 (lit "dot")) | destruct (utf8 (lit "top"))]; reflexivity.
  - apply Sa in I. now rewrite I.
  - apply Sv in I. now rewrite I.
  - apply Ss in I. rewrite I. now destruct (utf8 v).
Qed.

(** ** Words *)
Lemma cut_some n v : ~ In "="%char n -> cut_equals (n ++ lit "=" ++ v) = (n, Some v).
Proof.
  induction n as [|c n IH]; intros H; [reflexivity|]. cbn [app cut_equals]. destruct (Ascii.eqb_spec c "=") as [->|_]; [destruct H; now left|].
  rewrite IH by (intros I; apply H; now right). reflexivity.
Qed.
Lemma cut_none n : ~ In "="%char n -> cut_equals n = (n, None).
Proof.
  induction n as [|c n IH]; intros H; [reflexivity|]. cbn [cut_equals]. destruct (Ascii.eqb_spec c "=") as [->|_]; [destruct H; now left|].
  rewrite IH by (intros I; apply H; now right). reflexivity.
Qed.
Lemma cut_spec s : forall n v, cut_equals s = (n, v) -> s = n ++ match v with Some v => lit "=" ++ v | None => [] end.
Proof.
  induction s as [|c s IH]; intros n v E; [injection E as <- <-; reflexivity|]. cbn [cut_equals] in E. destruct (Ascii.eqb_spec c "=") as [->|_].
  - injection E as <- <-. reflexivity.
  - destruct (cut_equals s) as [n' v'] eqn:C. injection E as <- <-. cbn [app]. f_equal. now apply IH.
Qed.
Definition option_name (o : valued) : str := match o with VTarget => lit "target" | VBin => lit "bin" | VExample => lit "example" | VFeatures => lit "features" | VFormat => lit "format" end.
Lemma long_valued_spec n o : long_valued n = Some o -> n = option_name o.
Proof.
  unfold long_valued. destruct (str_eqb_spec n (lit "target")) as [->|_]; [intros E; now injection E as <-|]. destruct (str_eqb_spec n (lit "bin")) as [->|_]; [intros E; now injection E as <-|].
  destruct (str_eqb_spec n (lit "example")) as [->|_]; [intros E; now injection E as <-|]. destruct (str_eqb_spec n (lit "features")) as [->|_]; [intros E; now injection E as <-|].
  destruct (str_eqb_spec n (lit "format")) as [->|_]; [intros E; now injection E as <-|]. discriminate.
Qed.
Definition switch_name (o : switch) : str := match o with WAll => lit "all-features" | WVerbose => lit "verbose" | WHelp => lit "help" | WVersion => lit "version" end.
Lemma long_switch_spec n o : long_switch n = Some o -> n = switch_name o.
Proof.
  unfold long_switch. destruct (str_eqb_spec n (lit "all-features")) as [->|_]; [intros E; now injection E as <-|]. destruct (str_eqb_spec n (lit "verbose")) as [->|_]; [intros E; now injection E as <-|].
  destruct (str_eqb_spec n (lit "help")) as [->|_]; [intros E; now injection E as <-|]. destruct (str_eqb_spec n (lit "version")) as [->|_]; [intros E; now injection E as <-|]. discriminate.
Qed.
(** A value that is taken asks for something. *)
Lemma set_value_named utf8 o v r : set_value utf8 o v r = Stop Refused \/ exists s, named utf8 (option_name o) v s /\ set_value utf8 o v r = ap utf8 s r.
Proof.
  destruct (utf8 v) eqn:U; [|left; unfold set_value; now rewrite U]. destruct o; cbn [option_name].
  - right. exists (STarget v). split; [now constructor | reflexivity].
  - right. exists (SBin v). split; [now constructor | reflexivity].
  - right. exists (SExample v). split; [now constructor | reflexivity].
  - right. exists (SFeatures v). split; [now constructor | reflexivity].
  - destruct (format_of v) as [f|] eqn:F; [|left; unfold set_value; now rewrite U, F]. unfold format_of in F.
    destruct (str_eqb_spec v (lit "dot")) as [->|_]; [injection F as <-; right; exists (SFormat Dot); split; [now constructor | reflexivity]|].
    destruct (str_eqb_spec v (lit "top")) as [->|_]; [injection F as <-; right; exists (SFormat Top); split; [now constructor | reflexivity] | discriminate].
Qed.
Lemma named_option utf8 n v s : named utf8 n v s -> exists o, n = option_name o /\ long_valued n = Some o /\ long_switch n = None /\ ~ In "="%char n /\ forall r, set_value utf8 o v r = ap utf8 s r.
Proof.
  intros H. inversion H; subst.
  - exists VTarget. repeat split. cbn. intuition discriminate.
  - exists VBin. repeat split. cbn. intuition discriminate.
  - exists VExample. repeat split. cbn. intuition discriminate.
  - exists VFeatures. repeat split. cbn. intuition discriminate.
  - exists VFormat. repeat split. cbn. intuition discriminate.
  - exists VFormat. repeat split. cbn. intuition discriminate.
Qed.

Lemma read_long utf8 x rest r : x <> [] -> read_cli utf8 ((lit "--" ++ x) :: rest) None r =
  let (name, value) := cut_equals x in
  match long_valued name, long_switch name, value with
  | Some o, _, Some v => match set_value utf8 o v r with Next r' => read_cli utf8 rest None r' | Stop p => p end
  | Some o, _, None => read_cli utf8 rest (Some o) r
  | None, Some s, None => match set_switch s r with Next r' => read_cli utf8 rest None r' | Stop p => p end
  | None, Some _, Some _ => Refused
  | None, None, _ => Refused
  end.
Proof.
  intros N. cbn [read_cli]. destruct (str_eqb_spec (lit "--" ++ x) (lit "--")) as [E|_].
  - destruct N. apply (app_inv_head (lit "--")). now rewrite app_nil_r.
  - rewrite starts_with_refl. reflexivity.
Qed.
Lemma read_word utf8 v rest r : word v -> read_cli utf8 (v :: rest) None r = match set_start utf8 v r with Next r' => read_cli utf8 rest None r' | Stop p => p end.
Proof.
  intros W. cbn [read_cli]. destruct (str_eqb_spec v (lit "--")) as [->|_]; [specialize (W (lit "-") eq_refl); discriminate W|].
  destruct (starts_with (lit "--") v) eqn:E.
  - exfalso. apply starts_with_app in E. destruct E as [x ->]. specialize (W ("-"%char :: x) eq_refl). discriminate W.
  - apply word_dashed in W. now rewrite W.
Qed.
Lemma read_value utf8 o v rest r : word v -> read_cli utf8 (v :: rest) (Some o) r = match set_value utf8 o v r with Next r' => read_cli utf8 rest None r' | Stop p => p end.
Proof. intros W. cbn [read_cli]. apply word_dashed in W. now rewrite W. Qed.
Lemma read_spelled utf8 s w rest r : spelled utf8 s w -> read_cli utf8 (w ++ rest) None r = match ap utf8 s r with Next r' => read_cli utf8 rest None r' | Stop p => p end.
Proof.
  intros H. inversion H as [n v s' N W|n v s' N| | | |v W U]; subst.
  - destruct (named_option _ _ _ _ N) as [o [En [Lo [_ [Ne Es]]]]]. cbn [app]. rewrite read_long by (subst n; destruct o; cbn; discriminate). rewrite (cut_none n Ne), Lo. rewrite read_value by exact W. now rewrite Es.
  - destruct (named_option _ _ _ _ N) as [o [En [Lo [_ [Ne Es]]]]]. cbn [app]. change ("-"%char :: "-"%char :: n ++ lit "=" ++ v) with (lit "--" ++ n ++ lit "=" ++ v). rewrite read_long by (subst n; destruct o; cbn; discriminate). rewrite (cut_some n v Ne), Lo. now rewrite Es.
  - reflexivity.
  - reflexivity.
  - cbn. now destruct (a_verbose (rd_args r)).
  - cbn [app]. now rewrite read_word.
Qed.

(** ** Forward *)
Lemma nodup_front {A} (l k : list A) : NoDup (l ++ k) -> NoDup l.
Proof. induction l as [|x l IH]; intros H; [constructor|]. inversion H as [|? ? N H']; subst. constructor; [intros I; apply N, in_or_app; now left | now apply IH]. Qed.
Lemma read_all utf8 ss ws : Forall2 (spelled utf8) ss ws -> forall ss0 r rest, stands ss0 r -> once (ss0 ++ ss) ->
  exists r', stands (ss0 ++ ss) r' /\ read_cli utf8 (concat ws ++ rest) None r = read_cli utf8 rest None r'.
Proof.
  induction 1 as [|s w ss ws Hs F IH]; intros ss0 r rest S O.
  - exists r. rewrite app_nil_r. now split.
  - replace (ss0 ++ s :: ss) with ((ss0 ++ [s]) ++ ss) in O |- * by (now rewrite <- app_assoc).
    destruct (ap_new utf8 ss0 r s S (spelled_valid _ _ _ Hs)) as [r1 [E1 S1]].
    { unfold once in O. rewrite map_app in O. apply nodup_front in O. rewrite map_app in O. cbn in O. apply NoDup_remove_2 in O. now rewrite app_nil_r in O. }
    destruct (IH (ss0 ++ [s]) r1 rest S1 O) as [r' [S' E']]. exists r'. split; [exact S'|]. cbn [concat]. rewrite <- app_assoc, (read_spelled utf8 s w _ r Hs), E1. exact E'.
Qed.
Lemma empty_stands : stands [] (mkReading no_args false).
Proof. split; [constructor; cbn; try (intros; split; [discriminate | intros []]); try easy | cbn; split; [discriminate | intros [f []]]]. Qed.
Lemma says_unique ss a b : says ss a -> says ss b -> a = b.
Proof.
  assert (O : forall (x y : option str) f, (forall v, x = Some v <-> In (f v) ss) -> (forall v, y = Some v <-> In (f v) ss) -> x = y).
  { intros [x|] [y|] f Hx Hy; [| | |reflexivity].
    - symmetry. apply Hy, Hx. reflexivity.
    - symmetry. apply Hy, Hx. reflexivity.
    - apply Hx, Hy. reflexivity. }
  assert (B : forall (x y : bool) P, (x = true <-> P) -> (y = true <-> P) -> x = y) by (intros [|] [|] P Hx Hy; intuition congruence).
  intros [St Sb Se Sf Sm Sd Sa Sv Ss] [Tt Tb Te Tf Tm Td Ta Tv Ts].
  assert (Ef : a_format a = a_format b).
  { assert (D : forall f, In (SFormat f) ss \/ ~ In (SFormat f) ss). { intros f. destruct (in_dec (fun x y : setting => ltac:(repeat decide equality)) (SFormat f) ss); auto. }
    destruct (D Dot) as [I|N1]; [now rewrite (Sm _ I), (Tm _ I)|]. destruct (D Top) as [I|N2]; [now rewrite (Sm _ I), (Tm _ I)|].
    rewrite Sd, Td; [reflexivity | |]; intros [|]; assumption. }
  destruct a, b; cbn in *. f_equal; eauto.
Qed.
Lemma read_line utf8 ss args a exe : line utf8 ss args -> once ss -> says ss a -> cli utf8 (exe :: args) = Parsed a.
Proof.
  intros L O Y. unfold cli. cbn [skipn]. inversion L as [? ws F|? ws F|ss1 ws v F U]; subst.
  - destruct (read_all utf8 ss ws F [] _ [] empty_stands O) as [r [[S _] E]]. rewrite app_nil_r in E. rewrite E. cbn. f_equal. exact (says_unique _ _ _ S Y).
  - destruct (read_all utf8 ss ws F [] _ [lit "--"] empty_stands O) as [r [[S _] E]]. rewrite E. cbn. f_equal. exact (says_unique _ _ _ S Y).
  - destruct (read_all utf8 ss1 ws F [] _ [lit "--"; v] empty_stands) as [r [S E]]; [unfold once in *; rewrite map_app in O; exact (nodup_front _ _ O)|].
    rewrite E. cbn [app] in S. destruct (ap_new utf8 ss1 r (SStart v) S U) as [r' [E' S']]. { unfold once in O. rewrite map_app in O. apply NoDup_remove_2 in O. now rewrite app_nil_r in O. }
    change (match set_start utf8 v r with Next r'' => read_rest utf8 [] r'' | Stop p => p end = Parsed a). change (set_start utf8 v r) with (ap utf8 (SStart v) r). rewrite E'. cbn. f_equal. exact (says_unique _ _ _ (proj1 S') Y).
Qed.

(** ** Backward *)
Lemma spelled_more utf8 s w ss args : spelled utf8 s w -> line utf8 ss args -> line utf8 (s :: ss) (w ++ args).
Proof.
  intros Hs L. inversion L as [? ws F|? ws F|ss1 ws v F U]; subst.
  - apply (ln_plain utf8 (s :: ss) (w :: ws)). now constructor.
  - rewrite app_assoc. apply (ln_end utf8 (s :: ss) (w :: ws)). now constructor.
  - rewrite app_assoc. apply (ln_rest utf8 (s :: ss1) (w :: ws)); [now constructor | exact U].
Qed.
Definition explained (utf8 : str -> bool) (ss0 : list setting) (argv : list str) (p : parsed) : Prop :=
  match p with
  | Parsed a => exists ss, line utf8 ss argv /\ once (ss0 ++ ss) /\ says (ss0 ++ ss) a
  | Shown => exists ss ws h rest, Forall2 (spelled utf8) ss ws /\ once (ss0 ++ ss) /\ argv = concat ws ++ h :: rest /\ asks (ss0 ++ ss) h
  | Refused => True
  end.
Lemma explained_more utf8 ss0 s w argv p : spelled utf8 s w -> explained utf8 (ss0 ++ [s]) argv p -> explained utf8 ss0 (w ++ argv) p.
Proof.
  intros Hs. destruct p as [a| |]; cbn; [| |trivial].
  - intros [ss [L [O Y]]]. exists (s :: ss). rewrite <- app_assoc in O, Y. split; [now apply spelled_more|]. now split.
  - intros [ss [ws [h [rest [F [O [-> A]]]]]]]. exists (s :: ss), (w :: ws), h, rest. rewrite <- app_assoc in O, A. split; [now constructor|]. split; [exact O|]. split; [|exact A]. cbn [concat]. now rewrite <- app_assoc.
Qed.
(** One setting read by [ap]. *)
Lemma explained_ap utf8 ss0 r s w argv (k : reading -> parsed) : stands ss0 r -> once ss0 -> spelled utf8 s w ->
  (forall r', stands (ss0 ++ [s]) r' -> once (ss0 ++ [s]) -> explained utf8 (ss0 ++ [s]) argv (k r')) ->
  explained utf8 ss0 (w ++ argv) (match ap utf8 s r with Next r' => k r' | Stop p => p end).
Proof.
  intros S O Hs K. destruct (in_dec Nat.eq_dec (kind s) (map kind ss0)) as [I|N].
  - rewrite (ap_again utf8 ss0 r s S I). exact Logic.I.
  - destruct (ap_new utf8 ss0 r s S (spelled_valid _ _ _ Hs) N) as [r' [-> S']]. apply (explained_more utf8 ss0 s w argv _ Hs). apply K; [exact S'|].
    unfold once. rewrite map_app. cbn [map]. apply NoDup_Add with (a := kind s) (l := map kind ss0); [|split; [exact O | exact N]]. pose proof (Add_app (kind s) (map kind ss0) []) as H. now rewrite app_nil_r in H.
Qed.
Lemma read_rest_explained utf8 argv ss0 r : stands ss0 r -> once ss0 -> explained utf8 ss0 (lit "--" :: argv) (read_rest utf8 argv r).
Proof.
  intros S O. destruct argv as [|v [|u argv]].
  - exists []. rewrite app_nil_r. split; [exact (ln_end utf8 [] [] (Forall2_nil _))|]. split; [exact O | exact (proj1 S)].
  - cbn [read_rest]. destruct (utf8 v) eqn:U; [|unfold set_start; rewrite U; exact Logic.I]. change (set_start utf8 v r) with (ap utf8 (SStart v) r).
    destruct (in_dec Nat.eq_dec (kind (SStart v)) (map kind ss0)) as [I|N]; [rewrite (ap_again utf8 ss0 r _ S I); exact Logic.I|].
    destruct (ap_new utf8 ss0 r (SStart v) S U N) as [r' [-> S']]. exists [SStart v]. split; [exact (ln_rest utf8 [] [] v (Forall2_nil _) U)|]. split; [|exact (proj1 S')].
    unfold once. rewrite map_app. cbn [map]. apply NoDup_Add with (a := 7) (l := map kind ss0); [|split; [exact O | exact N]]. pose proof (Add_app 7 (map kind ss0) []) as H. now rewrite app_nil_r in H.
  - cbn [read_rest]. destruct (set_start utf8 v r) as [r'|p] eqn:E.
    + assert (E2 : set_start utf8 u r' = Stop Refused). { unfold set_start in E. destruct (utf8 v); [|discriminate]. cbn [negb] in E. destruct (is_some (a_start (rd_args r))); [discriminate|]. injection E as <-. unfold set_start. cbn. now destruct (utf8 u). }
      rewrite E2. exact Logic.I.
    + unfold set_start in E. destruct (negb (utf8 v)); [injection E as <-; exact Logic.I|]. destruct (is_some (a_start (rd_args r))); [injection E as <-; exact Logic.I | discriminate].
Qed.
Lemma shorts_explained utf8 ss0 r cs argv : stands ss0 r -> once ss0 -> cs <> [] -> (forall x, cs <> "-"%char :: x) ->
  (forall r', stands (ss0 ++ [SVerbose]) r' -> once (ss0 ++ [SVerbose]) -> explained utf8 (ss0 ++ [SVerbose]) argv (read_cli utf8 argv None r')) ->
  explained utf8 ss0 ((lit "-" ++ cs) :: argv) (match set_shorts cs r with Next r' => read_cli utf8 argv None r' | Stop p => p end).
Proof.
  intros S O N D K. destruct cs as [|c cs]; [now destruct N|]. cbn [set_shorts]. unfold short_switch.
  destruct (Ascii.eqb_spec c "v") as [->|_].
  - destruct cs as [|d cs].
    + replace (match match set_switch WVerbose r with Next r' => set_shorts [] r' | Stop p => Stop p end with Next r' => read_cli utf8 argv None r' | Stop p => p end)
        with (match ap utf8 SVerbose r with Next r' => read_cli utf8 argv None r' | Stop p => p end) by (cbn [ap set_shorts]; now destruct (set_switch WVerbose r)).
      change ((lit "-" ++ ["v"%char]) :: argv) with ([lit "-v"] ++ argv). apply (explained_ap utf8 ss0 r SVerbose [lit "-v"] argv _ S O (sp_v utf8) K).
    + change (set_switch WVerbose r) with (ap utf8 SVerbose r). destruct (in_dec Nat.eq_dec (kind SVerbose) (map kind ss0)) as [I|Nv]; [rewrite (ap_again utf8 ss0 r _ S I); exact Logic.I|].
      destruct (ap_new utf8 ss0 r SVerbose S Logic.I Nv) as [r' [-> S']]. cbn [set_shorts].
      assert (G : d = "h"%char \/ d = "V"%char -> explained utf8 ss0 ((lit "-" ++ "v"%char :: d :: cs) :: argv) Shown).
      { intros Hd. exists [], [], (lit "-v" ++ d :: cs), argv. rewrite app_nil_r. split; [constructor|]. split; [exact O|]. split; [reflexivity|]. apply as_group; [exact Hd|]. intros I. apply Nv. exact (in_map kind ss0 SVerbose I). }
      unfold short_switch. destruct (Ascii.eqb_spec d "v") as [->|_].
      * pose proof (ap_again utf8 (ss0 ++ [SVerbose]) r' SVerbose S' (ltac:(rewrite map_app; apply in_or_app; right; now left))) as E. cbn [ap] in E. rewrite E. exact Logic.I.
      * destruct (Ascii.eqb_spec d "h") as [->|_]; [apply G; now left|]. destruct (Ascii.eqb_spec d "V") as [->|_]; [apply G; now right | exact Logic.I].
  - assert (G : c = "h"%char \/ c = "V"%char -> explained utf8 ss0 ((lit "-" ++ c :: cs) :: argv) Shown).
    { intros Hd. exists [], [], (lit "-" ++ c :: cs), argv. rewrite app_nil_r. split; [constructor|]. split; [exact O|]. split; [reflexivity|]. now apply as_short. }
    destruct (Ascii.eqb_spec c "h") as [->|_]; [apply G; now left|]. destruct (Ascii.eqb_spec c "V") as [->|_]; [apply G; now right | exact Logic.I].
Qed.
Lemma read_explained utf8 k : forall argv, length argv <= k -> forall ss0 r, stands ss0 r -> once ss0 -> explained utf8 ss0 argv (read_cli utf8 argv None r).
Proof.
  induction k as [|k IH]; intros argv L ss0 r S O; (destruct argv as [|arg argv]; [exists []; rewrite app_nil_r; split; [exact (ln_plain utf8 [] [] (Forall2_nil _))|]; split; [exact O | exact (proj1 S)]|]); cbn in L; [lia|].
  destruct (str_eqb_spec arg (lit "--")) as [->|N1].
  { change (read_cli utf8 (lit "--" :: argv) None r) with (read_rest utf8 argv r). now apply read_rest_explained. }
  destruct (starts_with (lit "--") arg) eqn:E.
  - apply starts_with_app in E. destruct E as [x ->]. rewrite read_long by (intros ->; now apply N1). destruct (cut_equals x) as [name value] eqn:C. pose proof (cut_spec x name value C) as Ex.
    destruct (long_valued name) as [o|] eqn:Lo.
    + pose proof (long_valued_spec _ _ Lo) as En. destruct value as [v|].
      * destruct (set_value_named utf8 o v r) as [->|[s [Ns ->]]]; [exact Logic.I|]. rewrite <- En in Ns. rewrite Ex. change (lit "--" ++ name ++ lit "=" ++ v) with (lit "--" ++ name ++ lit "=" ++ v).
        apply (explained_ap utf8 ss0 r s [lit "--" ++ name ++ lit "=" ++ v] argv _ S O (sp_one utf8 _ _ _ Ns)). intros r' S' O'. apply IH; [lia | exact S' | exact O'].
      * rewrite app_nil_r in Ex. subst x. destruct argv as [|v argv]; [exact Logic.I|]. destruct (dashed v) eqn:D; [cbn [read_cli]; rewrite D; exact Logic.I|]. apply word_dashed in D. rewrite read_value by exact D.
        destruct (set_value_named utf8 o v r) as [->|[s [Ns ->]]]; [exact Logic.I|]. rewrite <- En in Ns. cbn in L.
        apply (explained_ap utf8 ss0 r s [lit "--" ++ name; v] argv _ S O (sp_two utf8 _ _ _ Ns D)). intros r' S' O'. apply IH; [lia | exact S' | exact O'].
    + destruct (long_switch name) as [s|] eqn:Ls; [|now destruct value]. pose proof (long_switch_spec _ _ Ls) as En. destruct value as [v|]; [exact Logic.I|]. rewrite app_nil_r in Ex. subst x name. destruct s; cbn [switch_name].
      * apply (explained_ap utf8 ss0 r SAll [lit "--all-features"] argv _ S O (sp_all utf8)). intros r' S' O'. apply IH; [lia | exact S' | exact O'].
      * apply (explained_ap utf8 ss0 r SVerbose [lit "--verbose"] argv _ S O (sp_verbose utf8)). intros r' S' O'. apply IH; [lia | exact S' | exact O'].
      * exists [], [], (lit "--help"), argv. rewrite app_nil_r. split; [constructor|]. split; [exact O|]. split; [reflexivity | constructor].
      * exists [], [], (lit "--version"), argv. rewrite app_nil_r. split; [constructor|]. split; [exact O|]. split; [reflexivity | constructor].
  - destruct (dashed arg) eqn:D.
    + destruct arg as [|c [|d cs]]; try discriminate D. unfold dashed in D. apply Ascii.eqb_eq in D. subst c.
      assert (Rr : read_cli utf8 (("-"%char :: d :: cs) :: argv) None r = match set_shorts (d :: cs) r with Next r' => read_cli utf8 argv None r' | Stop p => p end).
      { cbn [read_cli]. destruct (str_eqb_spec ("-"%char :: d :: cs) (lit "--")) as [Z|_]; [now destruct N1|]. rewrite E. reflexivity. }
      refine (eq_ind_r (fun p => explained utf8 ss0 _ p) _ Rr). apply (shorts_explained utf8 ss0 r (d :: cs) argv S O); [discriminate | |intros r' S' O'; apply IH; [lia | exact S' | exact O']].
      intros y Z. injection Z as -> ->. pose proof (starts_with_refl (lit "--") y) as X. assert (Z : true = false) by exact (eq_trans (eq_sym X) E). discriminate Z.
    + apply word_dashed in D. rewrite read_word by exact D. destruct (utf8 arg) eqn:U; [|unfold set_start; rewrite U; exact Logic.I]. change (set_start utf8 arg r) with (ap utf8 (SStart arg) r).
      apply (explained_ap utf8 ss0 r (SStart arg) [arg] argv _ S O (sp_start utf8 _ D U)). intros r' S' O'. apply IH; [lia | exact S' | exact O'].
Qed.

(** ** The command line *)
Theorem cli_iff utf8 exe args a : cli utf8 (exe :: args) = Parsed a <-> exists ss, line utf8 ss args /\ once ss /\ says ss a.
Proof.
  split.
  - intros E. pose proof (read_explained utf8 (length args) args (Nat.le_refl _) [] _ empty_stands (NoDup_nil _)) as H. unfold cli in E. cbn [skipn] in E. rewrite E in H. exact H.
  - intros [ss [L [O Y]]]. exact (read_line utf8 ss args a exe L O Y).
Qed.
Lemma asks_stop utf8 ss r h rest : stands ss r -> once ss -> asks ss h -> read_cli utf8 (h :: rest) None r = Shown.
Proof.
  intros S O A. inversion A as [| |c more Hc|c more Hc N]; subst.
  - reflexivity.
  - reflexivity.
  - destruct Hc as [-> | ->]; reflexivity.
  - destruct (ap_new utf8 ss r SVerbose S Logic.I) as [r' [E _]].
    { intros I. apply kind_in in I. destruct I as [t [I K]]. destruct t; try discriminate K. now apply N. }
    assert (Rr : read_cli utf8 ((lit "-v" ++ c :: more) :: rest) None r = match set_shorts ("v"%char :: c :: more) r with Next r' => read_cli utf8 rest None r' | Stop p => p end) by reflexivity.
    refine (eq_trans Rr _). clear Rr. cbn [set_shorts]. change (short_switch "v") with (Some WVerbose). cbv iota. change (set_switch WVerbose r) with (ap utf8 SVerbose r). rewrite E. destruct Hc as [-> | ->]; reflexivity.
Qed.
Theorem cli_shown utf8 exe args : cli utf8 (exe :: args) = Shown <->
  exists ss ws h rest, Forall2 (spelled utf8) ss ws /\ once ss /\ args = concat ws ++ h :: rest /\ asks ss h.
Proof.
  split.
  - intros E. pose proof (read_explained utf8 (length args) args (Nat.le_refl _) [] _ empty_stands (NoDup_nil _)) as H. unfold cli in E. cbn [skipn] in E. rewrite E in H. exact H.
  - intros [ss [ws [h [rest [F [O [-> A]]]]]]]. unfold cli. cbn [skipn]. destruct (read_all utf8 ss ws F [] _ (h :: rest) empty_stands O) as [r [S E]]. rewrite E. cbn [app] in S. exact (asks_stop utf8 ss r h rest S O A).
Qed.
