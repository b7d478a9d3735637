(** Consequences of the description of the log. *)
From Coq Require Import Permutation Sorted.
From Verif Require Import M_base M_stack M_graph M_analysis M_filter M_names M_thumb M_ty M_parse M_build M_run M_log S_names S_sig S_build S_run S_log.
From Verif Require Import L_base L_names L_build1 L_build2 L_build3 L_build4 L_build5 L_run L_log L_log2 L_log3.

Lemma part_In P m ms x : part P m ms -> (In x ms <-> P /\ x = m).
Proof. intros [H|H]; cbn; split; [intros [<-|[]]; split; [exact H | reflexivity] | intros [_ ->]; left; reflexivity | intros [] | intros [K _]; contradiction]. Qed.
Lemma part_nil P m ms : part P m ms -> (ms = [] <-> ~ P).
Proof. intros [H|H]; split; try discriminate; [intros K; contradiction | intros _; exact H | reflexivity]. Qed.
Lemma F2_concat {A} (Q : A -> list message -> Prop) l mss x : Forall2 Q l mss -> (In x (concat mss) <-> exists a ms, In a l /\ Q a ms /\ In ms mss /\ In x ms).
Proof.
  induction 1 as [|a ms l mss H F IH]; cbn [concat In].
  - split; [intros [] | intros [a [ms [[] _]]]].
  - rewrite in_app_iff, IH. split.
    + intros [K|[a' [ms' [K1 [K2 [K3 K4]]]]]]; [exists a, ms; repeat split; try assumption; left; reflexivity | exists a', ms'; repeat split; try assumption; right; assumption].
    + intros [a' [ms' [_ [K2 [[<-|K3] K4]]]]]; [left; exact K4|]. right. clear IH H.
      induction F as [|b ns l mss Hb F IHF]; [destruct K3|]. destruct K3 as [<-|K3]; [exists b, ns; repeat split; try assumption; left; reflexivity|].
      destruct (IHF K3) as [a2 [ms2 [J1 [J2 [J3 J4]]]]]. exists a2, ms2. repeat split; try assumption; right; assumption.
Qed.
Lemma F2_at {A} (Q : A -> list message -> Prop) l mss a : Forall2 Q l mss -> In a l -> exists ms, Q a ms /\ In ms mss.
Proof. induction 1 as [|b ms l mss H F IH]; [intros []|]. intros [<-|K]; [exists ms; split; [exact H | left; reflexivity]|]. destruct (IH K) as [ms' [K1 K2]]. exists ms'. split; [exact K1 | right; exact K2]. Qed.

Section Members.
Variables (p : prog).
Hypothesis W : wf_prog p.
Lemma chosen_lt i n : chosen p i n -> i < length (pg_defined p).
Proof. intros C. exact (live_lt p _ _ (chosen_live p _ _ C)). Qed.
Lemma symbol_In i n ms x : symbol_log p i ms -> chosen p i n ->
  (In x ms <-> (is_thumb (pg_target p) = false /\ usage p i LUnknown /\ x = no_usage n) \/ (untyped_fn p i /\ x = no_type n)).
Proof.
  intros [n' [a [b [C' [-> [A B]]]]]] C. rewrite (chosen_fun p _ _ _ C' C) in *. rewrite in_app_iff, (part_In _ _ _ x A), (part_In _ _ _ x B). tauto.
Qed.
Lemma code_In i n ms x : code_log p i ms -> chosen p i n ->
  (In x ms <-> (exists m k why, overridden p i m k why /\ x = override_note n m k why) \/ (usage p i LUnknown /\ x = no_usage n) \/ (blind p i /\ x = blind_note n)).
Proof.
  intros [n' [a [b [c [C' [-> [A [B D]]]]]]]] C. rewrite (chosen_fun p _ _ _ C' C) in *. rewrite !in_app_iff, (part_In _ _ _ x B), (part_In _ _ _ x D).
  assert (K : In x a <-> exists m k why, overridden p i m k why /\ x = override_note n m k why); [|tauto]. inversion A as [m k why O|O]; subst; cbn [In].
  - split; [intros [<-|[]]; exists m, k, why; split; [exact O | reflexivity]|]. intros [m' [k' [why' [O' ->]]]]. left.
    assert (X : m = m' /\ k = k' /\ why = why'); [|destruct X as [-> [-> ->]]; reflexivity].
    assert (F : exists addr size a, analysed p i addr size a /\ llvm_size p i (Some m) /\ stack a = Some k) by (inversion O; subst; do 3 eexists; (split; [eassumption | split; eassumption])).
    destruct F as [addr [size [an [Fa [Fl Fs]]]]]. destruct (overridden_facts p W _ _ _ _ _ _ _ _ Fa Fl O) as [X1 [X2 [X3 X4]]]. destruct (overridden_facts p W _ _ _ _ _ _ _ _ Fa Fl O') as [Y1 [Y2 [Y3 Y4]]].
    split; [congruence|]. split; [congruence|]. destruct X4 as [[X4 ->]|[X4 [_ [_ ->]]]], Y4 as [[Y4 ->]|[Y4 [_ [_ ->]]]]; try reflexivity; contradiction.
  - split; [intros []|]. intros [m [k [why [O' _]]]]. exact (O _ _ _ O').
Qed.
Lemma stmts_In done l ms x : stmts_log p done l ms -> (In x ms <-> exists pre y post, l = pre ++ y :: post /\ news p (done ++ pre) y x).
Proof.
  induction 1 as [done|done y rest m ms N S IH|done y rest ms N S IH]; cbn [In].
  - split; [intros [] | intros [pre [y [post [E _]]]]; destruct pre; discriminate E].
  - rewrite IH. split.
    + intros [<-|[pre [z [post [-> K]]]]]; [exists [], y, rest; split; [reflexivity | rewrite app_nil_r; exact N]|]. exists (y :: pre), z, post. split; [reflexivity|]. rewrite <- app_assoc in K. exact K.
    + intros [[|y' pre] [z [post [E K]]]]; cbn [app] in E; injection E as <- E.
      * left. rewrite app_nil_r in K. clear -N K W. inversion N; subst; inversion K; subst; try reflexivity. match goal with A : chosen p ?i ?a, B : chosen p ?i ?b |- _ => lazymatch a with b => fail | _ => rewrite (chosen_fun p _ _ _ A B); reflexivity end end.
      * right. exists pre, z, post. split; [exact E|]. rewrite <- app_assoc. exact K.
  - rewrite IH. split.
    + intros [pre [z [post [-> K]]]]. exists (y :: pre), z, post. split; [reflexivity|]. rewrite <- app_assoc in K. exact K.
    + intros [[|y' pre] [z [post [E K]]]]; cbn [app] in E; injection E as <- E; [rewrite app_nil_r in K; now destruct (N x)|]. exists pre, z, post. split; [exact E|]. rewrite <- app_assoc. exact K.
Qed.
Lemma trace_In ds tr : trace p ds tr -> forall i st, In (i, st) tr <-> exists n d, In (n, d) ds /\ live p n i /\ In st (d_stmts d).
Proof.
  induction 1 as [|n d ds tr N T IH|n d j ds tr L T IH]; intros i st.
  - split; [intros [] | intros [n [d [[] _]]]].
  - rewrite IH. split; intros [n' [d' [I K]]]; exists n', d'; (split; [|exact K]); [right; exact I|]. destruct I as [I|I]; [injection I as <- <-; now destruct (N i) | exact I].
  - rewrite in_app_iff, IH. split.
    + intros [K|[n' [d' [I K]]]]; [|exists n', d'; split; [right; exact I | exact K]]. apply in_map_iff in K. destruct K as [st' [K I]]. injection K as -> ->. exists n, d. split; [left; reflexivity|]. split; assumption.
    + intros [n' [d' [[I|I] [K1 K2]]]]; [|right; exists n', d'; repeat split; assumption]. injection I as <- <-. left. rewrite (live_inj p W _ _ _ K1 L). apply in_map. exact K2.
Qed.
Lemma trace_body tr : trace p (pg_defines p) tr -> forall i st, In (i, st) tr <-> body p i st.
Proof. intros T i st. exact (trace_In _ _ T i st). Qed.
Lemma sig_In void s l ms x : sig_log p void s ms -> sig_label void s l ->
  (In x ms <-> (((exists v, void = Some v /\ s = fmt_sig (TAlias v)) /\ (forall j r, ~ typed_by_def p j (fmt_sig r)) /\ x = no_callee (show_sig s)) \/
                (~ untyped p /\ (forall j, ~ pointee p void s j) /\ x = no_callee l))).
Proof.
  intros [l' [a [b [L' [-> [A B]]]]]] L.
  assert (l' = l).
  { destruct L as [[v [V1 [V2 [V3 ->]]]]|[N ->]], L' as [[v' [V1' [V2' [V3' ->]]]]|[N' ->]]; [congruence | exfalso; exact (N' _ V1 V2 V3) | exfalso; exact (N _ V1' V2' V3') | reflexivity]. }
  subst l'. rewrite in_app_iff, (part_In _ _ _ x A), (part_In _ _ _ x B). tauto.
Qed.
Lemma label_exists void s : exists l, sig_label void s l.
Proof. eexists. apply label_spec. Qed.

Lemma seq_lt i n : In i (seq 0 n) <-> i < n.
Proof. rewrite in_seq. lia. Qed.
Lemma named i ms : (symbol_log p i ms \/ code_log p i ms) -> exists n, chosen p i n.
Proof. intros [[n [_ [_ [C _]]]]|[n [_ [_ [_ [C _]]]]]]; exists n; exact C. Qed.
Lemma trace_fun ds a b : trace p ds a -> trace p ds b -> a = b.
Proof.
  intros A. revert b. induction A as [|n d ds tr N T IH|n d j ds tr L T IH]; intros b B; inversion B as [|? ? ? ? N' T'|? ? k ? ? L' T']; subst.
  - reflexivity.
  - exact (IH _ T').
  - now destruct (N k).
  - now destruct (N' j).
  - rewrite (live_inj p W _ _ _ L' L), (IH _ T'). reflexivity.
Qed.
Lemma split_first {A} (P : A -> Prop) (D : forall x, {P x} + {~ P x}) l x : In x l -> P x -> exists pre y post, l = pre ++ y :: post /\ P y /\ forall z, In z pre -> ~ P z.
Proof.
  induction l as [|a l IH]; [intros []|]. intros I Q. destruct (D a) as [Y|N]; [exists [], a, l; split; [reflexivity|]; split; [exact Y|]; intros z []|].
  destruct I as [<-|I]; [contradiction|]. destruct (IH I Q) as [pre [y [post [-> [K1 K2]]]]]. exists (a :: pre), y, post. split; [reflexivity|]. split; [exact K1|].
  intros z [<-|K]; [exact N | exact (K2 z K)].
Qed.
Definition is_call (f : str) (y : nat * stmt) : {exists k, y = (k, DirectCall f)} + {~ exists k, y = (k, DirectCall f)}.
Proof.
  destruct y as [k [e|n|g|sg| | |]]; try (right; intros [k' K]; discriminate K). destruct (str_eqb g f) eqn:E; [left; exists k; apply str_eqb_eq in E; now subst | right; intros [k' K]; injection K as _ ->; now rewrite str_eqb_refl in E].
Defined.
End Members.
