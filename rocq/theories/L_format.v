(** The two output formats: lemmas for C97. *)
From Coq Require Import Permutation.
From Verif Require Import M_base M_stack M_graph M_analysis M_filter M_names M_thumb M_ty M_parse M_render M_write M_build M_run M_log M_wrapper M_driver S_render S_build S_run S_driver S_same S_format.
From Verif Require Import L_base L_render L_log L_driver1 L_driver2 L_write L_driver3 L_driver4 L_driver5.

Section Formats.
Variables (demangle : str -> str) (w : world) (f1 f2 : format).
Hypotheses (Sw : sane w) (Nf : forall k, w_fault w k = None).
Local Notation w1 := (in_format f1 w).
Local Notation w2 := (in_format f2 w).
Definition shown_by (x y : io Z) : Prop := exists pre target file rlib ll p g cs, load w target file rlib ll = Ret p /\
  report demangle (w_orders w) (a_start (w_args w)) p = Ret (g, cs) /\ x = (pre ++ [EOut (text_in f1 demangle g cs)], Ret 0%Z) /\ y = (pre ++ [EOut (text_in f2 demangle g cs)], Ret 0%Z).
Definition twin (x y : io Z) : Prop := (x = y /\ forall t, x <> (t, Ret 0%Z)) \/ shown_by x y.
Lemma twin_bind {A} (x : io A) k1 k2 : (forall a, snd x = Ret a -> twin (k1 a) (k2 a)) -> twin (ibind x k1) (ibind x k2).
Proof.
  intros H. unfold ibind. destruct x as [tx [a|m|m|]]; cbn [fst snd] in *; [|left; split; [reflexivity | intros t E; discriminate E]..].
  destruct (H a eq_refl) as [[-> N]|[pre [target [file [rlib [ll [p [g [cs [L [R [E1 E2]]]]]]]]]]]].
  - left. split; [reflexivity|]. intros t E. apply (f_equal snd) in E. cbn [snd] in E. apply (N (fst (k2 a))). rewrite <- E. destruct (k2 a); reflexivity.
  - right. exists (tx ++ pre), target, file, rlib, ll, p, g, cs. rewrite E1, E2. cbn [fst snd]. rewrite !app_assoc. repeat (split; [first [exact L | exact R | reflexivity]|]). reflexivity.
Qed.
Lemma archive_format f ms : archive_sizes (in_format f w) ms = archive_sizes w ms.
Proof. induction ms as [|m ms IH]; [reflexivity|]. cbn [archive_sizes]. rewrite IH. reflexivity. Qed.
Lemma load_files_format f target file rlib ll : load_files (in_format f w) target file rlib ll = load_files w target file rlib ll.
Proof.
  unfold load_files. cbv zeta. apply bind_ext. intros path. apply bind_ext. intros elf. apply bind_ext. intros dir. apply bind_ext. intros [[name t]|]; [|reflexivity].
  do 6 (apply bind_ext; intros ?). apply bind_ext; intros ms. rewrite archive_format. reflexivity.
Qed.
Lemma loading_format f target file rlib ll : loading demangle (in_format f w) target file rlib ll = loading demangle w target file rlib ll.
Proof. unfold loading. rewrite load_files_format. reflexivity. Qed.
Lemma touch_format f : touch (in_format f w) = touch w.
Proof.
  assert (H : forall l, touch_first (in_format f w) l = touch_first w l) by (induction l as [|x l IH]; [reflexivity|]; cbn [touch_first]; rewrite IH; reflexivity).
  unfold touch. rewrite H. reflexivity.
Qed.
Lemma emit_format f g cs : emit (write_output (in_format f w) demangle g cs) = ([EOut (text_in f demangle g cs)], Ret tt).
Proof.
  unfold write_output, text_in. cbn [in_format w_args a_format]. destruct f.
  - apply (emit_says (w_fault w) _ _ _ None (says_dot _ demangle g cs)). apply received_all. split; [reflexivity | intros k _; apply Nf].
  - apply (emit_says (w_fault w) _ _ _ None (says_top _ demangle g)). apply received_all. split; [reflexivity | intros k _; apply Nf].
Qed.
Lemma same_twin x : (forall t, x <> (t, Ret 0%Z)) -> twin x x.
Proof. intros H. left. split; [reflexivity | exact H]. Qed.
Lemma analyse_twin target file paths : twin (analyse demangle w1 target file paths) (analyse demangle w2 target file paths).
Proof.
  unfold analyse. destruct paths as [[rlib|] [ll|]]; [|apply same_twin; intros t E; discriminate E..]. rewrite !loading_format. apply twin_bind. intros p L. apply loading_inv in L.
  change (w_orders w1) with (w_orders w). change (w_orders w2) with (w_orders w). change (a_start (w_args w1)) with (a_start (w_args w)). change (a_start (w_args w2)) with (a_start (w_args w)).
  apply twin_bind. intros [g cs] R. rewrite log_parts in R. cbn [snd] in R. rewrite !emit_format. right. exists [], target, file, rlib, ll, p, g, cs. split; [exact L|]. split; [exact R|]. split; reflexivity.
Qed.
Lemma run_twin : twin (run demangle w1) (run demangle w2).
Proof.
  unfold run. change (w_wrapper w1) with (w_wrapper w). change (w_wrapper w2) with (w_wrapper w). rewrite (sane_user _ Sw). apply twin_bind. intros _ _. change (w_hash w1) with (w_hash w). change (w_hash w2) with (w_hash w). change (w_override w1) with (w_override w). change (w_override w2) with (w_override w).
  destruct (_ && _)%bool; [apply same_twin; intros t E; discriminate E|]. cbv zeta. change (pick_file (w_args w1)) with (pick_file (w_args w)). change (pick_file (w_args w2)) with (pick_file (w_args w)).
  apply twin_bind. intros file _. apply twin_bind. intros config _. apply twin_bind. intros _ _. apply twin_bind. intros cfg _. apply twin_bind. intros exe _. rewrite !touch_format. apply twin_bind. intros _ _. apply twin_bind. intros _ _.
  unfold build_and_analyse. apply twin_bind. intros _ _. apply twin_bind. intros child _. apply twin_bind. intros paths _. destruct (snd child) as [[|z|z]|]; [apply analyse_twin | apply same_twin; intros t E; discriminate E..].
Qed.
Theorem same_but_text t c : main demangle w1 = (t, c) -> exists t', main demangle w2 = (t', c) /\
  ((c <> 0%Z /\ t' = t) \/ (c = 0%Z /\ exists pre g cs, printed pre = [] /\ t = pre ++ [EOut (text_in f1 demangle g cs)] /\ t' = pre ++ [EOut (text_in f2 demangle g cs)])).
Proof.
  intros M. destruct run_twin as [[E N]|[pre [target [file [rlib [ll [p [g [cs [L [R [E1 E2]]]]]]]]]]]].
  - exists t. unfold main in *. rewrite <- E. split; [exact M|]. left. split; [|reflexivity]. destruct (run demangle w1) as [t0 [z|m|m|]]; injection M as <- <-; try discriminate. intros ->. exact (N t0 eq_refl).
  - unfold main in *. rewrite E1 in M. injection M as <- <-. exists (pre ++ [EOut (text_in f2 demangle g cs)]). rewrite E2. split; [reflexivity|]. right. split; [reflexivity|]. exists pre, g, cs. split; [|split; reflexivity].
    assert (Sf : sane w1) by (destruct Sw; constructor; assumption). assert (M : main demangle w1 = (pre ++ [EOut (text_in f1 demangle g cs)], 0%Z)) by (unfold main; rewrite E1; reflexivity).
    destruct (proj1 (proj2 (c60 demangle w1 _ 0%Z (sane_user _ Sf) M))) as [P|[a [b [d [Et [Pa Q]]]]]].
    + rewrite printed_app in P. cbn in P. destruct (printed pre); discriminate P.
    + destruct Q as [->|[m ->]].
      * apply app_inj_tail in Et. destruct Et as [-> _]. exact Pa.
      * exfalso. change (EOut b :: [EErr m]) with ([EOut b] ++ [EErr m]) in Et. rewrite app_assoc in Et. apply app_inj_tail in Et. destruct Et as [_ Et]. discriminate Et.
Qed.
End Formats.

(** Both texts show the same. *)
Lemma both_texts demangle (g : graph node) cs : (forall nd, In nd (gnodes g) -> no_backslash (demangle (nname nd)) /\ one_line (demangle (nname nd))) ->
  exists st mx rows, read_dot (dot demangle g cs) = Some st /\ read_top (top demangle g) = Some (mx, rows) /\ Permutation (map row_of (file_nodes st)) (map Some rows) /\
    match mx with
    | Some n => In (Some n) (map drawn_max (file_nodes st)) /\ forall k, In (Some k) (map drawn_max (file_nodes st)) -> (k <= n)%N
    | None => file_nodes st = []
    end.
Proof.
  intros H. destruct (dot_read_back demangle g cs (fun nd I => proj1 (H nd I))) as [st [R1 [R2 _]]]. destruct (top_rows demangle g (fun nd I => proj2 (H nd I))) as [mx [l [T1 [T2 _]]]].
  destruct (top_max_line demangle g (fun nd I => proj2 (H nd I))) as [mx' [rows [T3 T4]]]. rewrite T1 in T3. injection T3 as <- <-. exists st, mx. eexists. split; [exact R1|]. split; [exact T1|].
  assert (Cm : forall (B : Type) (h : drawn -> B) h', (forall k nd, h (Some (N.of_nat k), Some (demangle (nname nd), nmax nd, nlocal nd), ndashed nd) = h' nd) -> map h (file_nodes st) = map h' (gnodes g)).
  { intros B h h' E. rewrite R2. unfold node_count. clear - E. generalize 0. induction (gnodes g) as [|nd nds IH]; intros k; [reflexivity|]. cbn [length seq combine map fst snd]. rewrite E, IH. reflexivity. }
  split.
  - rewrite (Cm _ row_of (fun nd => Some (S_render.usage nd, demangle (nname nd)))) by (intros k nd; unfold row_of, S_render.usage; destruct (nlocal nd); reflexivity). rewrite <- map_map with (g := Some). apply Permutation_map, Permutation_map, T2.
  - assert (Dm : map drawn_max (file_nodes st) = map (fun nd => Some (max_number nd)) (gnodes g)) by (apply Cm; intros k nd; unfold drawn_max, max_number; destruct (nmax nd) as [[|]|]; reflexivity).
    rewrite Dm. destruct mx as [n|]; [destruct T4 as [[nd [I <-]] T4]; split; [apply (in_map (fun nd => Some (max_number nd))); exact I | intros k Ik; apply in_map_iff in Ik; destruct Ik as [x [E Ix]]; injection E as <-; exact (T4 x Ix)]|].
    rewrite R2. destruct (gnodes g) eqn:E; [unfold node_count; rewrite E; reflexivity | discriminate T4].
Qed.
Theorem formats_agree demangle w t t' c' : sane w -> (forall k, w_fault w k = None) -> main demangle (in_format Dot w) = (t, 0%Z) -> main demangle (in_format Top w) = (t', c') ->
  exists target file rlib ll p drawing list, analyses w target file rlib ll p /\ printed t = [drawing] /\ c' = 0%Z /\ printed t' = [list] /\
  ((forall g cycles nd, report demangle (w_orders w) (a_start (w_args w)) p = Ret (g, cycles) -> In nd (gnodes g) -> no_backslash (demangle (nname nd)) /\ one_line (demangle (nname nd))) ->
   exists st mx rows, read_dot drawing = Some st /\ read_top list = Some (mx, rows) /\ Permutation (map row_of (file_nodes st)) (map Some rows) /\
     match mx with
     | Some n => In (Some n) (map drawn_max (file_nodes st)) /\ forall k, In (Some k) (map drawn_max (file_nodes st)) -> (k <= n)%N
     | None => file_nodes st = []
     end).
Proof.
  intros Sw Nf M M'. destruct (same_but_text demangle w Dot Top Sw Nf t 0%Z M) as [t2 [M2 [[C _]|[_ [pre' [g' [cs' [Pp [Et _]]]]]]]]]; [destruct (C eq_refl)|]. rewrite M2 in M'. injection M' as <- <-.
  destruct (run_twin demangle w Dot Top Sw Nf) as [[E N]|[pre [target [file [rlib [ll [p [g [cs [L [R [E1 E2]]]]]]]]]]]].
  - exfalso. unfold main in M. destruct (run demangle (in_format Dot w)) as [t0 [z|m|m|]]; injection M as H1 H2; try discriminate. subst z. exact (N t0 eq_refl).
  - unfold main in M, M2. rewrite E1 in M. rewrite E2 in M2. injection M as Et1. injection M2 as <-. destruct (loaded w target file rlib ll p Sw L) as [_ An]. exists target, file, rlib, ll, p, (dot demangle g cs), (top demangle g). split; [exact An|].
    rewrite Et in Et1. apply app_inj_tail in Et1. destruct Et1 as [-> Et1]. rewrite Et, !printed_app, Pp, <- Et1. split; [reflexivity|]. split; [reflexivity|]. split; [reflexivity|]. intros H. apply both_texts. intros nd I. exact (H g cs nd R I).
Qed.
