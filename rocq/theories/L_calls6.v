(** Lemmas: the maxima of programs that differ in the order of the definitions; examples for the edges one by one. *)
From Coq Require Import Permutation.
From Verif Require Import M_base M_stack M_graph M_analysis M_filter M_names M_render M_thumb M_ty M_parse M_build M_run S_names S_graph S_filter S_sig S_build S_run L_base L_names L_ir2 L_trav L_maxprops L_mono L_filter2 L_build1 L_build2 L_build3 L_build4 L_build5 L_build6 L_build7 L_build8 X_build L_run L_u64 L_run2 S_calls L_calls4 L_calls5.
Local Open Scope string_scope.
Local Open Scope list_scope.

Lemma counted_reports d1 d2 o1 o2 p q b1 b2 g1 g2 c1 c2 i m1 m2 : wf_prog p -> same_prog p q -> fair o1 -> fair o2 -> sizes_u64 p ->
  build d1 o1 p = Ret b1 -> build d2 o2 q = Ret b2 -> same_counted (length (pg_defined p)) (b_g b1) (b_g b2) -> max_stack true (b_g b1) = Ret (g1, c1) -> max_stack true (b_g b2) = Ret (g2, c2) ->
  i < length (pg_defined p) -> reported g1 i m1 -> reported g2 i m2 -> m1 = m2.
Proof.
  intros W S F1 F2 Fi E1 E2 Sc M1 M2 Hi R1 R2. pose proof (wf_same _ _ W S) as Wq.
  destruct (build_spec _ _ _ _ W F1 E1) as [k1 [v1 [G1 _]]]. destruct (build_spec _ _ _ _ Wq F2 E2) as [k2 [v2 [G2 _]]].
  pose proof (same_graph_of _ _ _ _ _ S G2) as G2'.
  destruct (counted_same _ _ _ (graph_wf p k1 v1 _ G1) Sc) as [f [f' [K0 [K1 [K2 [K3 K4]]]]]].
  assert (RN : renumbering (b_g b1) (b_g b2) f f').
  { constructor.
    - intros v Hv. unfold node_count in *. apply nth_error_Some. rewrite (proj1 (K1 v)). apply nth_error_Some. exact Hv.
    - intros v Hv. unfold node_count in *. apply nth_error_Some. rewrite (proj2 (K1 v)). apply nth_error_Some. exact Hv.
    - exact K2.
    - exact K3.
    - intros v _. unfold local_of. rewrite (proj1 (K1 v)). reflexivity.
    - exact K4. }
  apply (renumbering_invariant (b_g b1) (b_g b2) f f' g1 g2 c1 c2 i m1 m2 (graph_wf p k1 v1 _ G1) (graph_wf q k2 v2 _ G2) (graph_u64 p k1 v1 _ G1 Fi) RN M1 M2 R1).
  rewrite (K0 i Hi). exact R2.
Qed.
Lemma calls_reports d1 d2 o1 o2 p q b1 b2 t1 t2 g1 g2 c1 c2 i m1 m2 : wf_prog p -> same_prog p q -> fair o1 -> fair o2 -> one_void p -> sizes_u64 p ->
  build d1 o1 p = Ret b1 -> build d2 o2 q = Ret b2 -> trace p (pg_defines p) t1 -> trace q (pg_defines q) t2 -> (forall i l, calls p t1 i l <-> calls q t2 i l) ->
  max_stack true (b_g b1) = Ret (g1, c1) -> max_stack true (b_g b2) = Ret (g2, c2) ->
  i < length (pg_defined p) -> reported g1 i m1 -> reported g2 i m2 -> m1 = m2.
Proof.
  intros W S F1 F2 O Fi E1 E2 T1 T2 C. apply (counted_reports d1 d2 o1 o2 p q b1 b2); try assumption. exact (same_calls_same_graph d1 d2 o1 o2 p q b1 b2 t1 t2 W S F1 F2 O E1 E2 T1 T2 C).
Qed.

(** * Examples *)
Definition t_casts : list (nat * stmt) := [(0, BitcastCall (Some (lit "foo"))); (0, BitcastCall (Some (lit "foo")))].
Lemma t_casts_trace : trace p_casts (pg_defines p_casts) t_casts.
Proof.
  change t_casts with (map (pair 0) [BitcastCall (Some (lit "foo")); BitcastCall (Some (lit "foo"))] ++ (map (pair 1) [] ++ [])).
  apply (tr_kept p_casts (lit "main") (snd (fdef "main" (fsig [] None) [BitcastCall (Some (lit "foo")); BitcastCall (Some (lit "foo"))])) 0); [live_tac|].
  apply (tr_kept p_casts (lit "foo") (snd (fdef "foo" (fsig [] None) [])) 1); [live_tac | constructor].
Qed.
(** `memcpy` is outside of the executable; a function calls both it and the intrinsic, another function calls that function. *)
Definition f_both := fdef "f" (fsig [] None) [DirectCall (lit "memcpy"); DirectCall (lit "llvm.memcpy.p0.p0.i64")].
Definition f_user := fdef "g" (fsig [] None) [DirectCall (lit "f")].
Definition t_fg : list (nat * stmt) := [(0, DirectCall (lit "memcpy")); (0, DirectCall (lit "llvm.memcpy.p0.p0.i64")); (1, DirectCall (lit "f"))].
Definition t_gf : list (nat * stmt) := [(1, DirectCall (lit "f")); (0, DirectCall (lit "memcpy")); (0, DirectCall (lit "llvm.memcpy.p0.p0.i64"))].
Lemma t_fg_trace : trace (p_order [f_both; f_user]) [f_both; f_user] t_fg.
Proof.
  change t_fg with (map (pair 0) (d_stmts (snd f_both)) ++ (map (pair 1) (d_stmts (snd f_user)) ++ [])).
  apply (tr_kept _ (lit "f") (snd f_both) 0); [live_tac|]. apply (tr_kept _ (lit "g") (snd f_user) 1); [live_tac | constructor].
Qed.
Lemma t_gf_trace : trace (p_order [f_user; f_both]) [f_user; f_both] t_gf.
Proof.
  change t_gf with (map (pair 1) (d_stmts (snd f_user)) ++ (map (pair 0) (d_stmts (snd f_both)) ++ [])).
  apply (tr_kept _ (lit "g") (snd f_user) 1); [live_tac|]. apply (tr_kept _ (lit "f") (snd f_both) 0); [live_tac | constructor].
Qed.
Lemma both_calls l a : l = [f_both; f_user] /\ a = t_fg \/ l = [f_user; f_both] /\ a = t_gf ->
  forall i k, calls (p_order l) a i k <-> i = 0 /\ k = KSym (lit "memcpy") \/ i = 1 /\ k = KReal 0.
Proof.
  intros La i k.
  assert (Nl : forall n j, live (p_order l) n j <-> (n, j) = (lit "f", 0) \/ (n, j) = (lit "g", 1)).
  { intros n j. split.
    - intros [ns [[x [E ->]] I]]. destruct j as [|[|j]]; cbn in E; [| |destruct j; discriminate E]; injection E as <-; cbn in I; destruct I as [<-|[]]; [left | right]; reflexivity.
    - intros [E|E]; injection E as -> ->; live_tac. }
  assert (Nm : forall j, ~ live (p_order l) (lit "memcpy") j) by (intros j K; apply Nl in K; destruct K as [K|K]; discriminate K).
  assert (Nc : forall n j, chosen (p_order l) j n -> n = lit "f" \/ n = lit "g") by (intros n j K; apply chosen_live in K; apply Nl in K; destruct K as [K|K]; injection K as -> _; [left | right]; reflexivity).
  assert (Lw : forall n, lowers (lit "llvm.memcpy.p0.p0.i64") n -> In n (map lit ["memcpy"; "__aeabi_memcpy"; "__aeabi_memcpy4"])).
  { intros n K. remember (lit "llvm.memcpy.p0.p0.i64") as f eqn:Ef. destruct K as [r n K|r n K|r n K]; [exact K | cbn in Ef; discriminate Ef | cbn in Ef; discriminate Ef]. }
  assert (Mk : forall before n, incl before a -> made (p_order l) before n -> n = lit "memcpy").
  { intros before n I [[j [A [B [_ D]]]]|[j [A _]]]; apply I in A.
    - destruct La as [[_ ->]|[_ ->]]; cbn in A; destruct A as [A|[A|[A|[]]]]; try (injection A as <- <-; reflexivity); injection A as <- <-; try (exfalso; apply B; eexists; reflexivity); exfalso; apply (D 0); apply Nl; left; reflexivity.
    - destruct La as [[_ ->]|[_ ->]]; cbn in A; destruct A as [A|[A|[A|[]]]]; discriminate A. }
  assert (Le : forall before st, incl before a -> In (i, st) a -> leads (p_order l) before st k -> i = 0 /\ k = KSym (lit "memcpy") \/ i = 1 /\ k = KReal 0).
  { intros before st I Is K.
    assert (Cs : i = 0 /\ st = DirectCall (lit "memcpy") \/ i = 0 /\ st = DirectCall (lit "llvm.memcpy.p0.p0.i64") \/ i = 1 /\ st = DirectCall (lit "f")).
    { destruct La as [[_ ->]|[_ ->]]; cbn in Is; destruct Is as [Is|[Is|[Is|[]]]]; injection Is as <- <-; tauto. }
    destruct K as [f j A B C|f A B C|f n j A B C|f n A B C D].
    - destruct Cs as [[-> E]|[[-> E]|[-> E]]]; injection E as ->; [now destruct (Nm j) | exfalso; apply A; eexists; reflexivity|]. apply Nl in B. destruct B as [B|B]; injection B as B; [right; now subst | discriminate].
    - destruct Cs as [[-> E]|[[-> E]|[-> E]]]; injection E as ->; [left; now split | exfalso; apply A; eexists; reflexivity|]. exfalso. apply (B 0). apply Nl. now left.
    - destruct Cs as [[-> E]|[[-> E]|[-> E]]]; injection E as ->; [apply lowers_intrinsic in B; destruct B as [r B]; discriminate B | | apply lowers_intrinsic in B; destruct B as [r B]; discriminate B].
      apply Lw in B. apply Nc in C. cbn in B. destruct C as [-> | ->]; destruct B as [B|[B|[B|[]]]]; discriminate B.
    - destruct Cs as [[-> E]|[[-> E]|[-> E]]]; injection E as ->; [apply lowers_intrinsic in B; destruct B as [r B]; discriminate B | | apply lowers_intrinsic in B; destruct B as [r B]; discriminate B].
      left. split; [reflexivity|]. now rewrite (Mk _ _ I D). }
  split.
  - intros [[before [st [after [E K]]]]|[j [_ [addr [size [y [[Th _] _]]]]]]]; [|discriminate Th].
    apply (Le before st); [rewrite E; intros x Ix; apply in_or_app; now left | rewrite E; apply in_or_app; right; now left | exact K].
  - intros [[-> ->]|[-> ->]]; left.
    + assert (K : forall before, leads (p_order l) before (DirectCall (lit "memcpy")) (KSym (lit "memcpy"))) by (intros before; apply le_extern; [intros [r E]; discriminate E | exact Nm | intros E; discriminate E]).
      destruct La as [[_ ->]|[_ ->]]; [exists [] | exists [(1, DirectCall (lit "f"))]]; eexists; eexists; (split; [reflexivity | apply K]).
    + assert (K : forall before, leads (p_order l) before (DirectCall (lit "f")) (KReal 0)) by (intros before; apply le_direct; [intros [r E]; discriminate E | apply Nl; now left | intros E; discriminate E]).
      destruct La as [[_ ->]|[_ ->]]; [exists [(0, DirectCall (lit "memcpy")); (0, DirectCall (lit "llvm.memcpy.p0.p0.i64"))] | exists []]; eexists; eexists; (split; [reflexivity | apply K]).
Qed.
Lemma both_example : let p := p_order [f_both; f_user] in let q := p_order [f_user; f_both] in
  wf_prog p /\ same_prog p q /\ one_void p /\ ~ stable p /\ trace p (pg_defines p) t_fg /\ trace q (pg_defines q) t_gf /\ (forall i l, calls p t_fg i l <-> calls q t_gf i l) /\
  exists b1 b2, build idd o_id p = Ret b1 /\ build idd o_id q = Ret b2 /\ gedges (b_g b1) <> gedges (b_g b2).
Proof.
  cbn zeta. split; [apply wf_progb_sound; vm_compute; reflexivity|]. split; [constructor; try reflexivity; apply perm_swap|]. split.
  { intros v w [V _]. exfalso. destruct V as [j [[ns [n [d [_ [_ [I E]]]]]] | [ns [n [_ [_ [_ []]]]]]]]. cbn in I. destruct I as [H | [H | []]]; injection H as <- <-; discriminate E. }
  split.
  { intros St. destruct (St (lit "memcpy")) as [_ K].
    - left. exists 0. split; [eexists; eexists; split; [left; reflexivity|]; split; [live_tac | left; reflexivity]|]. split; [intros [r E]; discriminate E|]. split; [discriminate|].
      intros j [ns [[x [E ->]] I]]. destruct j as [|[|j]]; cbn in E; [| |destruct j; discriminate E]; injection E as <-; cbn in I; destruct I as [I|[]]; discriminate I.
    - apply (K (lit "llvm.memcpy.p0.p0.i64")). apply (lo_memcpy (lit "p0.p0.i64")). now left. }
  split; [exact t_fg_trace|]. split; [exact t_gf_trace|]. split.
  { intros i l. rewrite (both_calls _ t_fg), (both_calls _ t_gf); [reflexivity | right; now split | left; now split]. }
  eexists. eexists. split; [vm_compute; reflexivity|]. split; [vm_compute; reflexivity|]. cbn. discriminate.
Qed.
