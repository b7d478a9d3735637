(** The loops of the analysis have enough steps: lemmas for C96. *)
From Verif Require Import M_base M_stack M_graph M_names M_analysis M_filter M_thumb M_ty M_parse M_render M_build M_run M_log.
From Verif Require Import S_build S_run L_log L_thumb4 L_log9.
Local Open Scope list_scope.

Definition nu {A} (x : outcome A) : Prop := x <> Fuel.
Lemma nu_ret {A} (a : A) : nu (Ret a).
Proof. discriminate. Qed.
Lemma nu_panic {A} s : nu (@Panic A s).
Proof. discriminate. Qed.
Lemma nu_fail {A} m : nu (@Fail A m).
Proof. discriminate. Qed.
Lemma nu_bind {A B} (x : outcome A) (f : A -> outcome B) : nu x -> (forall a, nu (f a)) -> nu (bind x f).
Proof. intros H K. destruct x; cbn [bind]; [apply K | discriminate | discriminate | destruct (H eq_refl)]. Qed.
Lemma nu_ofold {S X} (f : S -> X -> outcome S) l : (forall s x, nu (f s x)) -> forall s, nu (ofold f l s).
Proof. intros H. induction l as [|x l IH]; intros s; cbn [ofold]; [apply nu_ret | apply nu_bind; [apply H | exact IH]]. Qed.
Lemma nu_map {A B} (f : A -> outcome B) l : (forall a, nu (f a)) -> nu (map_outcome f l).
Proof. intros H. induction l as [|x l IH]; cbn [map_outcome]; [apply nu_ret|]. apply nu_bind; [apply H | intros y]. apply nu_bind; [exact IH | intros; apply nu_ret]. Qed.
Create HintDb nu.
Ltac nu := repeat (first
  [ apply nu_ret | apply nu_panic | apply nu_fail | solve [auto with nu]
  | (apply nu_bind; [|intros ?]) | (apply nu_ofold; intros ? ?) | (apply nu_map; intros ?)
  | match goal with |- nu (let '(_, _) := ?x in _) => destruct x | |- nu (if ?b then _ else _) => destruct b | |- nu (match ?x with _ => _ end) => destruct x end ]).

Lemma nu_slice_to s i : nu (str_slice_to s i). Proof. unfold str_slice_to. nu. Qed.
#[export] Hint Resolve nu_slice_to : nu.
Lemma nu_dehash s : nu (dehash s). Proof. unfold dehash. cbv zeta. nu. Qed.
#[export] Hint Resolve nu_dehash : nu.
Lemma nu_note_name demangle a c : nu (note_name demangle a c). Proof. unfold note_name. nu. Qed.
#[export] Hint Resolve nu_note_name : nu.
Lemma nu_canonical s n : nu (canonical s n). Proof. unfold canonical. nu. Qed.
#[export] Hint Resolve nu_canonical : nu.
Lemma nu_default demangle l : nu (default_methods demangle l).
Proof. induction l as [|x l IH]; cbn [default_methods]; cbv zeta; nu. Qed.
#[export] Hint Resolve nu_default : nu.
Lemma nu_real demangle p : nu (real_nodes demangle p).
Proof. unfold real_nodes. apply nu_ofold. intros s x. unfold add_real. cbv zeta. nu. Qed.
#[export] Hint Resolve nu_real : nu.
Lemma nu_stmt p a c i s st : nu (exec_stmt p a c i s st).
Proof. unfold exec_stmt. nu. Qed.
#[export] Hint Resolve nu_stmt : nu.
Lemma nu_ir p n : nu (ir_edges p n).
Proof. unfold ir_edges. apply nu_ofold. intros s d. unfold exec_define. cbv zeta. nu. Qed.
#[export] Hint Resolve nu_ir : nu.
Lemma nu_find tags a : nu (find_tag tags a).
Proof. destruct (bsearch_total tags a (S (length tags)) 0 (length tags)) as [[k [E _]]|E]; [lia | lia | | ]; unfold find_tag; rewrite E; discriminate. Qed.
#[export] Hint Resolve nu_find : nu.
Lemma nu_size tags a s : nu (code_size tags a s). Proof. unfold code_size. cbv zeta. nu. Qed.
Lemma nu_slice s a l : nu (slice s a l). Proof. unfold slice. nu. Qed.
Lemma nu_tag tags a : nu (at_tag tags a). Proof. unfold at_tag. nu. Qed.
Lemma nu_matches h s : nu (matches h s). Proof. unfold matches. cbv zeta. nu. Qed.
#[export] Hint Resolve nu_size nu_slice nu_tag nu_matches : nu.
Lemma nu_match2 g a x b y : nu (match2 g a x b y). Proof. unfold match2. nu. Qed.
#[export] Hint Resolve nu_match2 : nu.
Lemma nu_chain v h rs : nu (M_thumb.chain v h rs). Proof. induction rs as [|r rs IH]; cbn [M_thumb.chain]; nu. Qed.
Lemma nu_exec16 k h i l s : nu (exec16 k h i l s). Proof. unfold exec16. cbv zeta. nu. Qed.
Lemma nu_exec32 v a b i l s : nu (exec32 v a b i l s). Proof. unfold exec32. cbv zeta. nu. Qed.
#[export] Hint Resolve nu_chain nu_exec16 nu_exec32 : nu.
Lemma nu_aloop v a tags len k : forall hs, length hs <= k -> forall i skip s, nu (aloop v a tags len hs i skip s).
Proof.
  induction k as [|k IH]; intros [|x hs] L i skip s; cbn [aloop length] in *; cbv zeta; try (apply nu_ret); [lia|].
  destruct (skip =? 0)%N; [|apply IH; lia]. apply nu_bind; [auto with nu | intros [| |]]; [|apply IH; lia | apply nu_ret].
  apply nu_bind; [auto with nu | intros [k'|]]; [apply nu_bind; [auto with nu | intros s'; apply IH; lia]|]. destruct hs as [|y hs]; [apply nu_panic|]. apply nu_bind; [auto with nu | intros s'; apply IH; cbn [length] in L; lia].
Qed.
Lemma nu_analyze b a v t : nu (analyze b a v t). Proof. unfold analyze. now apply (nu_aloop _ _ _ _ (length (chunks2 b))). Qed.
Lemma nu_local g i : nu (get_local g i). Proof. unfold get_local. nu. Qed.
Lemma nu_max g i : nu (get_max g i). Proof. unfold get_max. nu. Qed.
Lemma nu_settle a o l x : nu (settle_local a o l x). Proof. unfold settle_local. nu. Qed.
Lemma nu_node_at i a x : nu (node_at i a x). Proof. unfold node_at. nu. Qed.
#[export] Hint Resolve nu_analyze nu_local nu_max nu_settle nu_node_at : nu.
Lemma nu_code p n e a t x s : nu (exec_code p n e a t x s).
Proof.
  unfold exec_code. cbv zeta. nu.
  all: unfold add_bl, add_b; cbv zeta; nu.
Qed.
#[export] Hint Resolve nu_code : nu.
Lemma nu_machine p n e : nu (machine_edges p n e). Proof. unfold machine_edges. nu. Qed.
#[export] Hint Resolve nu_machine : nu.
Theorem build_nu demangle o p : nu (build demangle o p).
Proof. unfold build. cbv zeta. nu. Qed.
#[export] Hint Resolve build_nu : nu.
Lemma nu_shorten_nodes demangle a l : nu (shorten_nodes demangle a l). Proof. induction l as [|x l IH]; cbn [shorten_nodes]; unfold shorten_node; nu. Qed.
#[export] Hint Resolve nu_shorten_nodes : nu.
Lemma nu_shorten demangle a g : nu (shorten demangle a g). Proof. unfold shorten. nu. Qed.
#[export] Hint Resolve nu_shorten : nu.
Theorem report_nu demangle o start p : wf_prog p -> fair o -> nu (report demangle o start p).
Proof.
  intros W Fo. unfold report. pose proof (build_nu demangle o p) as B. destruct (build demangle o p) as [b| | |] eqn:E; cbn [bind]; [|discriminate | discriminate | destruct (B eq_refl)].
  destruct (finish_total demangle o p b W Fo E start) as [g2 [g3 [cs [F M]]]]. unfold finish. rewrite F. cbn [bind]. rewrite M. cbn [bind]. nu.
Qed.
Lemma early_nu demangle p : nu (snd (early_log demangle p)).
Proof.
  unfold early_log. rewrite snd_lbind. cbn [quiet snd]. apply nu_bind; [auto with nu | intros _]. rewrite snd_lbind, real_erase. apply nu_bind; [auto with nu | intros n]. rewrite ir_erase. auto with nu.
Qed.
