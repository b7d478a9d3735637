(** What the log tells about a program. *)
From Coq Require Import Permutation Sorted.
From Verif Require Import M_base M_stack M_graph M_analysis M_filter M_names M_thumb M_ty M_parse M_build M_run M_log S_names S_sig S_build S_run S_log.
From Verif Require Import L_base L_names L_build1 L_build2 L_build3 L_build4 L_build5 L_build6 L_run L_log L_log2 L_log3 L_log4 L_log5 L_log6.

Section Told.
Variables (demangle : str -> str) (p : prog).
Hypothesis W : wf_prog p.

(** ** Once *)
Lemma symbols_once a i m : Forall2 (symbol_log p) (seq 0 (length (pg_defined p))) a -> i < length (pg_defined p) ->
  (forall n, chosen p i n -> (is_thumb (pg_target p) = false /\ usage p i LUnknown /\ m = no_usage n) \/ (untyped_fn p i /\ m = no_type n)) ->
  (exists n, m = no_usage n \/ m = no_type n) -> once m (concat a).
Proof.
  intros F L H _. apply (once_concat _ _ _ i m F (seq_NoDup _ _) (proj2 (seq_lt _ _) L)).
  - intros ms [n [x [y [C [-> [X Y]]]]]]. destruct (H n C) as [[T [U ->]]|[U ->]].
    + apply once_left; [inversion X as [_|N]; [apply once_one | destruct N; split; assumption]|]. intros K. apply (part_In _ _ _ _ Y) in K. destruct K as [_ K]. discriminate K.
    + apply once_right; [|inversion Y as [_|N]; [apply once_one | contradiction]]. intros K. apply (part_In _ _ _ _ X) in K. destruct K as [_ K]. discriminate K.
  - intros j ms J N Q K. destruct (named p j ms (or_introl Q)) as [n C]. apply (symbol_In p j n ms m Q C) in K. apply seq_lt in J.
    destruct (F2_at _ _ _ i F (proj2 (seq_lt _ _) L)) as [msi [Qi _]]. destruct (named p i msi (or_introl Qi)) as [ni Ci].
    destruct (H ni Ci) as [[T [U ->]]|[U ->]], K as [[T' [U' E]]|[U' E]]; try discriminate E.
    + apply no_usage_inj in E. subst n. exact (N (chosen_inj p W _ _ _ C Ci)).
    + apply no_type_inj in E. subst n. exact (N (chosen_inj p W _ _ _ C Ci)).
Qed.
Lemma codes_once mss i m : Forall2 (code_log p) (seq 0 (length (pg_defined p))) mss -> i < length (pg_defined p) ->
  (forall n, chosen p i n -> (usage p i LUnknown /\ m = no_usage n) \/ (blind p i /\ m = blind_note n)) -> once m (concat mss).
Proof.
  intros F L H. apply (once_concat _ _ _ i m F (seq_NoDup _ _) (proj2 (seq_lt _ _) L)).
  - intros ms [n [x [y [z [C [-> [X [Y Z]]]]]]]]. destruct (H n C) as [[U ->]|[U ->]].
    + apply once_right; [intros K; inversion X; subst; [destruct K as [K|[]]; discriminate K | destruct K]|].
      apply once_left; [inversion Y as [_|N]; [apply once_one | contradiction]|]. intros K. apply (part_In _ _ _ _ Z) in K. destruct K as [_ K]. discriminate K.
    + apply once_right; [intros K; inversion X; subst; [destruct K as [K|[]]; discriminate K | destruct K]|].
      apply once_right; [|inversion Z as [_|N]; [apply once_one | contradiction]]. intros K. apply (part_In _ _ _ _ Y) in K. destruct K as [_ K]. discriminate K.
  - intros j ms J N Q K. destruct (named p j ms (or_intror Q)) as [n C]. apply (code_In p W j n ms m Q C) in K. apply seq_lt in J.
    destruct (F2_at _ _ _ i F (proj2 (seq_lt _ _) L)) as [msi [Qi _]]. destruct (named p i msi (or_intror Qi)) as [ni Ci].
    destruct (H ni Ci) as [[U ->]|[U ->]], K as [[? [? [? [_ E]]]]|[[_ E]|[_ E]]]; try discriminate E.
    + apply no_usage_inj in E. subst n. exact (N (chosen_inj p W _ _ _ C Ci)).
    + apply blind_inj in E. subst n. exact (N (chosen_inj p W _ _ _ C Ci)).
Qed.
Lemma stmts_silent f done l ms : stmts_log p done l ms -> (exists k, In (k, DirectCall f) done) -> ~ In (lowering_note f) ms.
Proof.
  intros S [k K] I. apply (stmts_In p _ _ _ _ S) in I. destruct I as [pre [y [post [_ N]]]]. remember (lowering_note f) as m eqn:E. destruct N as [? ? ? ? ?|? ? ? ?|i g ? ? N]; try discriminate E.
  apply lowering_inj in E. subst g. apply (N k). apply in_or_app. now left.
Qed.
Lemma stmts_once f done l ms : stmts_log p done l ms -> In (lowering_note f) ms -> once (lowering_note f) ms.
Proof.
  induction 1 as [done|done y rest m ms N S IH|done y rest ms N S IH]; [intros [] | | exact IH].
  intros [->|I].
  - assert (Y : exists k, y = (k, DirectCall f)).
    { remember (lowering_note f) as m eqn:E. destruct N as [? ? ? ? ?|? ? ? ?|i g ? ? N]; try discriminate E. apply lowering_inj in E. subst g. now exists i. }
    destruct Y as [k ->]. change (lowering_note f :: ms) with ([lowering_note f] ++ ms). apply once_left; [apply once_one|]. apply (stmts_silent _ _ _ _ S). exists k. apply in_or_app. right. now left.
  - change (m :: ms) with ([m] ++ ms). apply once_right; [|exact (IH I)]. intros [->|[]].
    assert (Y : exists k, y = (k, DirectCall f)).
    { remember (lowering_note f) as m eqn:E. destruct N as [? ? ? ? ?|? ? ? ?|i g ? ? N]; try discriminate E. apply lowering_inj in E. subst g. now exists i. }
    destruct Y as [k ->]. apply (stmts_silent f _ _ _ S); [exists k; apply in_or_app; right; now left | exact I].
Qed.
(** The parts of the log tell different kinds of things. *)
Lemma in_symbols a x : Forall2 (symbol_log p) (seq 0 (length (pg_defined p))) a -> In x (concat a) -> exists n, (is_thumb (pg_target p) = false /\ x = no_usage n) \/ x = no_type n.
Proof.
  intros F I. apply (F2_concat _ _ _ x F) in I. destruct I as [i [ms [_ [Q [_ K]]]]]. destruct (named p i ms (or_introl Q)) as [n C]. apply (symbol_In p i n ms x Q C) in K. exists n. tauto.
Qed.
Lemma in_stmts tr b x : stmts_log p [] tr b -> In x b -> (exists code n, x = asm_note code n) \/ (exists f, x = no_information f) \/ (exists f, x = lowering_note f).
Proof.
  intros S I. apply (stmts_In p _ _ _ x S) in I. destruct I as [pre [y [post [_ N]]]]. destruct N as [i code n ? ?|i f ? ?|i f ? ? ?]; [left; now exists code, n | right; left; now exists f | right; right; now exists f].
Qed.
Lemma in_codes c x : codes_log p c -> In x c -> is_thumb (pg_target p) = true /\ (x = no_text \/ exists n, (exists m k why, x = override_note n m k why) \/ x = no_usage n \/ x = blind_note n).
Proof.
  intros [[_ ->]|[[T1 [T2 ->]]|[T1 [T2 [mss [F ->]]]]]] I; [destruct I | split; [exact T1|]; destruct I as [<-|[]]; now left|]. split; [exact T1|]. right.
  apply (F2_concat _ _ _ x F) in I. destruct I as [i [ms [_ [Q [_ K]]]]]. destruct (named p i ms (or_intror Q)) as [n C]. apply (code_In p W i n ms x Q C) in K. exists n.
  destruct K as [[m [k [why [_ K]]]]|[[_ K]|[_ K]]]; [left; now exists m, k, why | right; now left | right; now right].
Qed.
Lemma in_sigs void e x : sigs_log p void e -> In x e -> exists l, x = no_callee l.
Proof.
  intros [sigs [mss [_ [_ [F ->]]]]] I. apply (F2_concat _ _ _ x F) in I. destruct I as [s [ms [_ [Q [_ K]]]]]. destruct (label_exists void s) as [l L]. apply (sig_In p void s l ms x Q L) in K.
  destruct K as [[_ [_ K]]|[_ [_ K]]]; eexists; exact K.
Qed.
Lemma in_start start b x : start_log demangle p start b -> In x b -> x = start_missing \/ exists s text, x = start_multiple s text.
Proof. intros S I. destruct (start_kinds demangle p start b x S I) as [s [_ [_ [[E _]|[hits [text [E _]]]]]]]; [now left | right; now exists s, text]. Qed.
Ltac outside := let K := fresh "K" in let Q := fresh "Q" in intros K; rewrite ?in_app_iff in K;
  repeat match goal with
  | K : In _ _ \/ _ |- _ => destruct K as [K|K]
  end;
  match goal with
  | F : Forall2 (symbol_log p) _ ?a, K : In _ (concat ?a) |- _ => destruct (in_symbols _ _ F K) as [? [[? Q]|Q]]; try discriminate Q
  | F : stmts_log p [] _ ?b, K : In _ ?b |- _ => destruct (in_stmts _ _ _ F K) as [[? [? Q]]|[[? Q]|[? Q]]]; discriminate Q
  | F : codes_log p ?c, K : In _ ?c |- _ => destruct (in_codes _ _ F K) as [? [Q|[? [[? [? [? Q]]]|[Q|Q]]]]]; try discriminate Q
  | F : part _ _ ?d, K : In _ ?d |- _ => apply (part_In _ _ _ _ F) in K; destruct K as [_ Q]; discriminate Q
  | F : sigs_log p _ ?e, K : In _ ?e |- _ => destruct (in_sigs _ _ _ F K) as [? Q]; discriminate Q
  | F : start_log _ _ _ ?b, K : In _ ?b |- _ => destruct (in_start _ _ _ F K) as [Q|[? [? Q]]]; discriminate Q
  end.
Lemma once_usage start ms n : notes demangle p start ms -> In (no_usage n) ms -> once (no_usage n) ms.
Proof.
  intros H I. destruct (notes_exact demangle p W start ms H) as [void' [_ Ex]]. apply Ex in I. apply kind_usage in I. destruct I as [i [C [U Tx]]].
  destruct H as [bs [sl [fg [-> [B [Sl Fg]]]]]]. destruct B as [void [a [tr [b [c [d [e [V [-> [A [T [Sb [Cc [D E]]]]]]]]]]]]]].
  pose proof (chosen_lt p i n C) as L. apply once_left; [|outside]. destruct (is_thumb (pg_target p)) eqn:Th.
  - apply once_right; [outside; congruence|]. apply once_right; [outside|]. apply once_left; [|outside].
    destruct Cc as [[? _]|[[_ [T2 _]]|[_ [_ [mss [F ->]]]]]]; [congruence | exfalso; exact (Tx eq_refl T2)|]. apply (codes_once _ i _ F L). intros n' C'. rewrite (chosen_fun p _ _ _ C' C). left. split; [exact U | reflexivity].
  - apply once_left; [|outside; congruence]. apply (symbols_once _ i _ A L); [|exists n; now left]. intros n' C'. rewrite (chosen_fun p _ _ _ C' C). left. repeat split; assumption.
Qed.
Lemma once_type start ms n : notes demangle p start ms -> In (no_type n) ms -> once (no_type n) ms.
Proof.
  intros H I. destruct (notes_exact demangle p W start ms H) as [void' [_ Ex]]. apply Ex in I. apply kind_type in I. destruct I as [i [C U]].
  destruct H as [bs [sl [fg [-> [B [Sl Fg]]]]]]. destruct B as [void [a [tr [b [c [d [e [V [-> [A [T [Sb [Cc [D E]]]]]]]]]]]]]].
  pose proof (chosen_lt p i n C) as L. apply once_left; [|outside]. apply once_left; [|outside]. apply (symbols_once _ i _ A L); [|exists n; now right]. intros n' C'. rewrite (chosen_fun p _ _ _ C' C). right. split; [exact U | reflexivity].
Qed.
Lemma once_lowered start ms f : notes demangle p start ms -> In (lowering_note f) ms -> once (lowering_note f) ms.
Proof.
  intros [bs [sl [fg [-> [B [Sl Fg]]]]]] I. destruct B as [void [a [tr [b [c [d [e [V [-> [A [T [Sb [Cc [D E]]]]]]]]]]]]]].
  apply once_left; [|outside]. apply once_right; [outside|]. apply once_left; [|outside]. apply (stmts_once f _ _ _ Sb).
  rewrite !in_app_iff in I. destruct I as [[I|[I|I]]|I]; [exfalso; revert I; outside | exact I | exfalso; revert I; rewrite <- !in_app_iff; outside | exfalso; revert I; rewrite <- !in_app_iff; outside].
Qed.
Lemma once_blind start ms n : notes demangle p start ms -> In (blind_note n) ms -> once (blind_note n) ms.
Proof.
  intros H I. destruct (notes_exact demangle p W start ms H) as [void' [_ Ex]]. apply Ex in I. apply kind_blind in I. destruct I as [i [C U]].
  destruct H as [bs [sl [fg [-> [B [Sl Fg]]]]]]. destruct B as [void [a [tr [b [c [d [e [V [-> [A [T [Sb [Cc [D E]]]]]]]]]]]]]].
  pose proof (chosen_lt p i n C) as L. apply once_left; [|outside]. apply once_right; [outside|]. apply once_right; [outside|]. apply once_left; [|outside].
  destruct U as [[addr [size [an [[H1 [stext [text [y [code [H2 Hr]]]]]] Hi]]]] Hd]. destruct Cc as [[? _]|[[_ [T2 _]]|[_ [_ [mss [F ->]]]]]]; [congruence | congruence|].
  apply (codes_once _ i _ F L). intros n' C'. rewrite (chosen_fun p _ _ _ C' C). right. split; [|reflexivity]. split; [|exact Hd]. exists addr, size, an. split; [|exact Hi]. split; [exact H1|]. exists stext, text, y, code. split; [exact H2 | exact Hr].
Qed.
Lemma once_untyped start ms : notes demangle p start ms -> In untyped_note ms -> once untyped_note ms.
Proof.
  intros H I. destruct (notes_exact demangle p W start ms H) as [void' [_ Ex]]. apply Ex in I. apply kind_untyped in I.
  destruct H as [bs [sl [fg [-> [B [Sl Fg]]]]]]. destruct B as [void [a [tr [b [c [d [e [V [-> [A [T [Sb [Cc [D E]]]]]]]]]]]]]].
  apply once_left; [|outside]. apply once_right; [outside|]. apply once_right; [outside|]. apply once_right; [outside|]. apply once_left; [|outside]. destruct D as [_|N]; [apply once_one | contradiction].
Qed.

(** ** Silence *)
Lemma search N (P : nat -> Prop) : (forall i, i < N -> P i \/ ~ P i) -> (exists i, i < N /\ P i) \/ forall i, i < N -> ~ P i.
Proof.
  induction N as [|N IH]; intros D; [right; intros i K; lia|]. destruct (D N ltac:(lia)) as [Y|NY]; [left; exists N; split; [lia | exact Y]|].
  destruct IH as [[i [L Y]]|Z]; [intros i L; apply D; lia | left; exists i; split; [lia | exact Y]|]. right. intros i L. destruct (Nat.eq_dec i N) as [->|K]; [exact NY | apply Z; lia].
Qed.
Lemma body_lt i st : body p i st -> i < length (pg_defined p).
Proof. intros [n [d [_ [L _]]]]. exact (live_lt p _ _ L). Qed.
Lemma analysed_lt i addr size a : analysed p i addr size a -> i < length (pg_defined p).
Proof. intros [_ [st [tx [x [cd [_ [H _]]]]]]]. apply nth_error_Some. congruence. Qed.
Definition is_asm (i : nat) (y : nat * stmt) : {exists c, y = (i, Asm c)} + {~ exists c, y = (i, Asm c)}.
Proof.
  destruct y as [k [e|n|g|sg| | |]]; try (right; intros [c' K]; discriminate K). destruct (Nat.eq_dec k i) as [->|N]; [left; now exists e | right; intros [c K]; injection K as K _; contradiction].
Defined.
Definition is_cast (f : str) (y : nat * stmt) : {exists k, y = (k, BitcastCall (Some f))} + {~ exists k, y = (k, BitcastCall (Some f))}.
Proof.
  destruct y as [k [e|[g|]|g|sg| | |]]; try (right; intros [c' K]; discriminate K). destruct (str_eqb g f) eqn:E; [left; exists k; apply str_eqb_eq in E; now subst | right; intros [k' K]; injection K as _ ->; now rewrite str_eqb_refl in E].
Defined.
Lemma asm_first i tr : trace p (pg_defines p) tr -> has_asm p i -> exists code, first_asm p i code.
Proof.
  intros T [code B]. apply (trace_body p W _ T) in B. destruct (split_first _ (is_asm i) tr _ B (ex_intro _ code eq_refl)) as [pre [y [post [E [[c ->] N]]]]].
  exists c, tr, pre, post. split; [exact T|]. split; [exact E|]. intros c' K. apply (N _ K). now exists c'.
Qed.
Lemma notes_trace start ms : notes demangle p start ms -> exists tr, trace p (pg_defines p) tr.
Proof. intros [bs [sl [fg [_ [B _]]]]]. destruct B as [void [a [tr [b [c [d [e [_ [_ [_ [T _]]]]]]]]]]]. now exists tr. Qed.
Lemma notes_named start ms i : notes demangle p start ms -> i < length (pg_defined p) -> exists n, chosen p i n.
Proof.
  intros [bs [sl [fg [_ [B _]]]]] L. destruct B as [void [a [tr [b [c [d [e [_ [_ [A _]]]]]]]]]]. destruct (F2_at _ _ _ i A (proj2 (seq_lt _ _) L)) as [ms' [Q _]]. exact (named p i ms' (or_introl Q)).
Qed.
Lemma chosen_search f : (forall i, i < length (pg_defined p) -> exists n, chosen p i n) -> (exists j, chosen p j f) \/ forall j, ~ chosen p j f.
Proof.
  intros H. destruct (search (length (pg_defined p)) (fun j => chosen p j f)) as [[j [_ C]]|N].
  - intros i L. destruct (H i L) as [n C]. destruct (str_eqb n f) eqn:E; [apply str_eqb_eq in E; subst; now left|]. right. intros K. rewrite (chosen_fun p _ _ _ C K), str_eqb_refl in E. discriminate E.
  - left. now exists j.
  - right. intros j C. exact (N j (chosen_lt p j f C) C).
Qed.
Lemma silence start ms void : notes demangle p start ms -> (forall x, In x ms <-> announces demangle p start void x) ->
  (forall i, i < length (pg_defined p) -> exists l, usage p i l) -> (measured p \/ ~ measured p) -> (ms = [] <-> unremarkable demangle p start void).
Proof.
  intros H Ex Us Me. pose proof (fun i => notes_named start ms i H) as Nm. destruct (notes_trace start ms H) as [tr T]. split.
  - intros ->. assert (No : forall x, ~ announces demangle p start void x) by (intros x K; apply Ex in K; destruct K).
    assert (Tx : is_thumb (pg_target p) = true -> pg_text p <> None) by (intros A B; exact (No _ (an_text _ _ _ _ A B))). constructor.
    + exact Tx.
    + intros i L. destruct (Us i L) as [[k|] U]; [now exists k|]. destruct (Nm i L) as [n C]. now destruct (No _ (an_usage _ _ _ _ i n C U Tx)).
    + intros U. exact (No _ (an_untyped _ _ _ _ U)).
    + intros i A. assert (L : i < length (pg_defined p)) by (destruct A as [code B]; exact (body_lt _ _ B)). destruct (Nm i L) as [n C]. destruct (asm_first i tr T A) as [code F]. exact (No _ (an_asm _ _ _ _ i code n C F)).
    + intros f F. destruct (chosen_search f Nm) as [Y|N]; [exact Y|]. now destruct (No _ (an_cast _ _ _ _ f N F)).
    + intros i f Th B A. exact (No _ (an_lowered _ _ _ _ i f Th B A)).
    + intros i m k why O. assert (L : i < length (pg_defined p)) by (destruct O; eapply analysed_lt; eassumption). destruct (Nm i L) as [n C]. exact (No _ (an_override _ _ _ _ i n m k why C O)).
    + intros i B. assert (L : i < length (pg_defined p)) by (destruct B as [[? [? [? [? _]]]] _]; eapply analysed_lt; eassumption). destruct (Nm i L) as [n C]. exact (No _ (an_blind _ _ _ _ i n C B)).
    + intros v V C N. exact (No _ (an_fmt _ _ _ _ v _ V eq_refl C N)).
    + intros s ->. destruct H as [bs [sl [fg [E [_ [Sl _]]]]]]. symmetry in E. apply app_eq_nil in E. destruct E as [_ E]. apply app_eq_nil in E. destruct E as [-> _].
      inversion Sl as [|s' S'|s' n' S' U'|s' S' M'|s' hits' text' Lt' S' L' N' O' H']; subst; [now left | right; now exists n'].
    + destruct Me as [Y|N]; [exact Y|]. now destruct (No _ (an_figures _ _ _ _ N)).
  - intros U. destruct ms as [|x ms]; [reflexivity|]. exfalso. destruct (proj1 (Ex x) (or_introl eq_refl)) as [i n C Uk Tx|i n C Ut|i code n C F|f N F|i f Th Bf As|i n m k why C O|i n C Bl|T1 T2|Ut|v s E1 E2 E3 E4|s l E1 E2 E3 E4|b0 m S I|M].
    + destruct (un_usage _ _ _ _ U i (chosen_lt p i n C)) as [k K]. pose proof (usage_fun p i _ _ W Uk K) as Q. discriminate Q.
    + apply (un_typed _ _ _ _ U). now exists i.
    + apply (un_asm _ _ _ _ U i). destruct F as [tr' [pre [post [T' [E1 E2]]]]]. exists code. apply (trace_body p W _ T'). rewrite E1. apply in_or_app. right. now left.
    + destruct (un_cast _ _ _ _ U f F) as [j C]. exact (N j C).
    + exact (un_lowered _ _ _ _ U i f Th Bf As).
    + exact (un_kept _ _ _ _ U _ _ _ _ O).
    + exact (un_blind _ _ _ _ U i Bl).
    + exact (un_text _ _ _ _ U T1 T2).
    + exact (un_typed _ _ _ _ U Ut).
    + rewrite E2 in E3. exact (un_fmt _ _ _ _ U v E1 E3 E4).
    + destruct E1 as [i [[j Ty] Cl]]. apply (E4 j). right. split; [|exact Ty]. intros v V ->. apply (un_fmt _ _ _ _ U v V); [exists i; split; [now exists j | exact Cl]|]. intros j' r K. apply (E4 j'). left. exists v. split; [exact V|]. split; [reflexivity|]. now exists r.
    + destruct (start_kinds demangle p start b0 m S I) as [s [-> [Sn K]]]. destruct (un_start _ _ _ _ U s eq_refl) as [Y|[n Y]]; [contradiction|]. destruct (proj2 (Y n) eq_refl) as [Y1 Y2].
      assert (Z : forall hits : list str, 2 <= length hits -> NoDup hits -> (forall n, In n hits <-> shown_name p n /\ hashed_start demangle s n) -> False).
      { intros hits L N Q. destruct hits as [|x1 [|x2 l]]; cbn in L; try lia. assert (X1 : x1 = n) by (apply Y, Q; now left). assert (X2 : x2 = n) by (apply Y, Q; right; now left). inversion N as [|? ? K' _]; subst. apply K'. now left. }
      destruct K as [[_ [K|[hits [K1 [K2 K3]]]]]|[hits [tx [_ [_ [K1 [K2 [_ K3]]]]]]]]; [exact (K n Y1 Y2) | exact (Z hits K1 K2 K3) | exact (Z hits K1 K2 K3)].
    + exact (M (un_figures _ _ _ _ U)).
Qed.
(** Symbols outside of the executable are shown without any message only if they are called by name. *)
Lemma none_created start void : unremarkable demangle p start void -> (exists tr, trace p (pg_defines p) tr) -> (forall i f, body p i (DirectCall f) -> ~ intrinsic f -> exists j, live p f j) ->
  forall n, ~ created p n.
Proof.
  intros U [tr T] D n [[i [B [I [_ N]]]]|[i [B N]]]; [destruct (D i n B I) as [j L]; exact (N j L)|].
  assert (F : first_cast p n).
  { apply (trace_body p W _ T) in B. destruct (split_first _ (is_cast n) tr _ B (ex_intro _ i eq_refl)) as [pre [y [post [E [[k ->] K]]]]]. exists tr, pre, k, post. split; [exact T|]. split; [exact E|].
    intros [j st] J [[E1 [E2 [E3 E4]]]|[E1 _]]; cbn [snd] in E1; subst st; [|exact (K _ J (ex_intro _ j eq_refl))].
    assert (Bj : body p j (DirectCall n)) by (apply (trace_body p W _ T); rewrite E; apply in_or_app; now left). destruct (D j n Bj E2) as [q L]. exact (E4 q L). }
  destruct (un_cast _ _ _ _ U n F) as [j C]. exact (N j C).
Qed.
End Told.
