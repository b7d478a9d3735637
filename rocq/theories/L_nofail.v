(** The analysis of a program stops with a panic, never with an error: lemmas for C95. *)
From Verif Require Import M_base M_stack M_graph M_names M_analysis M_filter M_thumb M_ty M_parse M_render M_build M_run M_log.
From Verif Require Import L_log.
Local Open Scope list_scope.

Definition nf {A} (x : outcome A) : Prop := forall m, x <> Fail m.
Lemma nf_ret {A} (a : A) : nf (Ret a).
Proof. intros m. discriminate. Qed.
Lemma nf_panic {A} s : nf (@Panic A s).
Proof. intros m. discriminate. Qed.
Lemma nf_fuel {A} : nf (@Fuel A).
Proof. intros m. discriminate. Qed.
Lemma nf_bind {A B} (x : outcome A) (f : A -> outcome B) : nf x -> (forall a, nf (f a)) -> nf (bind x f).
Proof. intros H K m. destruct x; cbn [bind]; [apply K | intros E; injection E as ->; exact (H m eq_refl) | discriminate | discriminate]. Qed.
Lemma nf_ofold {S X} (f : S -> X -> outcome S) l : (forall s x, nf (f s x)) -> forall s, nf (ofold f l s).
Proof. intros H. induction l as [|x l IH]; intros s; cbn [ofold]; [apply nf_ret | apply nf_bind; [apply H | exact IH]]. Qed.
Lemma nf_map {A B} (f : A -> outcome B) l : (forall a, nf (f a)) -> nf (map_outcome f l).
Proof. intros H. induction l as [|x l IH]; cbn [map_outcome]; [apply nf_ret|]. apply nf_bind; [apply H | intros y]. apply nf_bind; [exact IH | intros; apply nf_ret]. Qed.
Create HintDb nf.
Ltac nf := repeat (first
  [ apply nf_ret | apply nf_panic | apply nf_fuel | solve [auto with nf]
  | (apply nf_bind; [|intros ?]) | (apply nf_ofold; intros ? ?) | (apply nf_map; intros ?)
  | match goal with |- nf (let '(_, _) := ?x in _) => destruct x | |- nf (if ?b then _ else _) => destruct b | |- nf (match ?x with _ => _ end) => destruct x end ]).

Lemma nf_slice_to s i : nf (str_slice_to s i). Proof. unfold str_slice_to. nf. Qed.
#[export] Hint Resolve nf_slice_to : nf.
Lemma nf_dehash s : nf (dehash s). Proof. unfold dehash. cbv zeta. nf. Qed.
#[export] Hint Resolve nf_dehash : nf.
Lemma nf_note_name demangle a c : nf (note_name demangle a c). Proof. unfold note_name. nf. Qed.
#[export] Hint Resolve nf_note_name : nf.
Lemma nf_canonical s n : nf (canonical s n). Proof. unfold canonical. nf. Qed.
#[export] Hint Resolve nf_canonical : nf.
Lemma nf_default demangle l : nf (default_methods demangle l).
Proof. induction l as [|x l IH]; cbn [default_methods]; cbv zeta; nf. Qed.
#[export] Hint Resolve nf_default : nf.
Lemma nf_real demangle p : nf (real_nodes demangle p).
Proof. unfold real_nodes. apply nf_ofold. intros s x. unfold add_real. cbv zeta. nf. Qed.
#[export] Hint Resolve nf_real : nf.
Lemma nf_stmt p a c i s st : nf (exec_stmt p a c i s st).
Proof. unfold exec_stmt. nf. Qed.
#[export] Hint Resolve nf_stmt : nf.
Lemma nf_ir p n : nf (ir_edges p n).
Proof. unfold ir_edges. apply nf_ofold. intros s d. unfold exec_define. cbv zeta. nf. Qed.
#[export] Hint Resolve nf_ir : nf.
Lemma nf_bsearch tags a k : forall l r, nf (bsearch k tags a l r).
Proof. induction k as [|k IH]; intros l r; cbn [bsearch]; cbv zeta; nf. Qed.
Lemma nf_find tags a : nf (find_tag tags a). Proof. apply nf_bsearch. Qed.
#[export] Hint Resolve nf_find : nf.
Lemma nf_size tags a s : nf (code_size tags a s). Proof. unfold code_size. cbv zeta. nf. Qed.
Lemma nf_slice s a l : nf (slice s a l). Proof. unfold slice. nf. Qed.
Lemma nf_tag tags a : nf (at_tag tags a). Proof. unfold at_tag. nf. Qed.
Lemma nf_matches h s : nf (matches h s). Proof. unfold matches. cbv zeta. nf. Qed.
#[export] Hint Resolve nf_size nf_slice nf_tag nf_matches : nf.
Lemma nf_match2 g a x b y : nf (match2 g a x b y). Proof. unfold match2. nf. Qed.
#[export] Hint Resolve nf_match2 : nf.
Lemma nf_chain v h rs : nf (M_thumb.chain v h rs). Proof. induction rs as [|r rs IH]; cbn [M_thumb.chain]; nf. Qed.
Lemma nf_exec16 k h i l s : nf (exec16 k h i l s). Proof. unfold exec16. cbv zeta. nf. Qed.
Lemma nf_exec32 v a b i l s : nf (exec32 v a b i l s). Proof. unfold exec32. cbv zeta. nf. Qed.
#[export] Hint Resolve nf_chain nf_exec16 nf_exec32 : nf.
Lemma nf_aloop v a tags len k : forall hs, length hs <= k -> forall i skip s, nf (aloop v a tags len hs i skip s).
Proof.
  induction k as [|k IH]; intros [|x hs] L i skip s; cbn [aloop length] in *; cbv zeta; try (apply nf_ret); [lia|].
  destruct (skip =? 0)%N; [|apply IH; lia]. apply nf_bind; [auto with nf | intros [| |]]; [|apply IH; lia | apply nf_ret].
  apply nf_bind; [auto with nf | intros [k'|]]; [apply nf_bind; [auto with nf | intros s'; apply IH; lia]|]. destruct hs as [|y hs]; [apply nf_panic|]. apply nf_bind; [auto with nf | intros s'; apply IH; cbn [length] in L; lia].
Qed.
Lemma nf_analyze b a v t : nf (analyze b a v t). Proof. unfold analyze. now apply (nf_aloop _ _ _ _ (length (chunks2 b))). Qed.
Lemma nf_local g i : nf (get_local g i). Proof. unfold get_local. nf. Qed.
Lemma nf_max g i : nf (get_max g i). Proof. unfold get_max. nf. Qed.
Lemma nf_settle a o l x : nf (settle_local a o l x). Proof. unfold settle_local. nf. Qed.
Lemma nf_node_at i a x : nf (node_at i a x). Proof. unfold node_at. nf. Qed.
#[export] Hint Resolve nf_analyze nf_local nf_max nf_settle nf_node_at : nf.
Lemma nf_code p n e a t x s : nf (exec_code p n e a t x s).
Proof.
  unfold exec_code. cbv zeta. nf.
  all: unfold add_bl, add_b; cbv zeta; nf.
Qed.
#[export] Hint Resolve nf_code : nf.
Lemma nf_machine p n e : nf (machine_edges p n e). Proof. unfold machine_edges. nf. Qed.
#[export] Hint Resolve nf_machine : nf.
Theorem build_nf demangle o p : nf (build demangle o p).
Proof. unfold build. cbv zeta. nf. Qed.
#[export] Hint Resolve build_nf : nf.
Lemma nf_intern g s i : nf (intern g s i). Proof. unfold intern. nf. Qed.
#[export] Hint Resolve nf_intern : nf.
Lemma nf_callees g c l : forall s, nf (copy_callees g c l s). Proof. induction l as [|x l IH]; intros s; cbn [copy_callees]; nf. Qed.
#[export] Hint Resolve nf_callees : nf.
Lemma nf_callers g l : forall s, nf (copy_callers g l s). Proof. induction l as [|x l IH]; intros s; cbn [copy_callers]; nf. Qed.
#[export] Hint Resolve nf_callers : nf.
Lemma nf_filter demangle ix s g : nf (filter_start demangle ix s g). Proof. unfold filter_start, reachable_subgraph. nf. Qed.
Lemma nf_cycle g c : nf (process_cycle g c). Proof. unfold process_cycle. cbv zeta. nf. Qed.
Lemma nf_single g c : nf (process_single g c). Proof. unfold process_single. cbv zeta. nf. Qed.
#[export] Hint Resolve nf_filter nf_cycle nf_single : nf.
Lemma nf_sccs l : forall g c, nf (process_sccs g l c). Proof. induction l as [|x l IH]; intros g c; cbn [process_sccs]; nf. Qed.
Lemma nf_topo l : forall g, nf (process_topo g l). Proof. induction l as [|x l IH]; intros g; cbn [process_topo]; nf. Qed.
#[export] Hint Resolve nf_sccs nf_topo : nf.
Lemma nf_stack i g : nf (max_stack i g). Proof. unfold max_stack, cyclic_pass, acyclic_pass. nf. Qed.
Lemma nf_shorten_nodes demangle a l : nf (shorten_nodes demangle a l). Proof. induction l as [|x l IH]; cbn [shorten_nodes]; unfold shorten_node; nf. Qed.
#[export] Hint Resolve nf_stack nf_shorten_nodes : nf.
Lemma nf_shorten demangle a g : nf (shorten demangle a g). Proof. unfold shorten. nf. Qed.
#[export] Hint Resolve nf_shorten : nf.
Theorem report_nf demangle o start p : nf (report demangle o start p).
Proof. unfold report, finish. nf. Qed.
