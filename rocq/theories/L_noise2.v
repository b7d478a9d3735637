(** Runs on modules that differ in what does not count. *)
From Coq Require Import Permutation.
From Verif Require Import M_base M_stack M_graph M_analysis M_filter M_names M_thumb M_ty M_parse M_render M_write M_build M_run M_log M_wrapper M_driver
  L_base L_driver3 S_graph S_build S_run S_calls S_driver S_same S_samelog S_noise L_log L_log2 L_log3 L_log8 L_write L_build1 L_build7 L_calls5 L_driver4 L_driver5 L_same L_move L_samelog L_same2 L_noise.

(** * Tables *)
Lemma view_in (l : str -> bool) (k : str -> bool) ds : (forall n, k n = true -> l n = true) -> view k ds = filter (fun x => k (fst x)) (view l ds).
Proof.
  intros H. unfold view. induction ds as [|[n d] ds IH]; [reflexivity|]. cbn [filter fst]. destruct (l n) eqn:L.
  - cbn [map filter fst snd]. destruct (k n); [cbn [map fst snd]; f_equal; exact IH | exact IH].
  - destruct (k n) eqn:K; [rewrite (H n K) in L; discriminate L | exact IH].
Qed.
Lemma view_sput l m n d : view l (sput m n d) = if l n then sput (view l m) n (substance d) else view l m.
Proof.
  unfold view. induction m as [|[a b] m IH].
  - cbn [sput filter fst map]. destruct (l n); reflexivity.
  - cbn [sput filter fst]. destruct (str_eqb_spec a n) as [->|N].
    + cbn [filter fst]. destruct (l n); [|reflexivity]. cbn [map fst snd sput]. rewrite str_eqb_refl. reflexivity.
    + cbn [filter fst]. destruct (l a); [|exact IH]. cbn [map fst snd]. rewrite IH. destruct (l n); [|reflexivity]. cbn [sput]. destruct (str_eqb_spec a n); [contradiction | reflexivity].
Qed.
(** ** What the collected tables keep of the items *)
Definition put_define (m : list (str * (str * fnsig * list stmt))) (g : gist) := match g with GDefine s => sput m (fst (fst s)) s | _ => m end.
Definition put_declare (m : list (str * option fnsig)) (g : gist) := match g with GDeclare n s => sput m n s | _ => m end.
Lemma collect_view l its : view l (collect_defines its) = fold_left put_define (gists l its) [].
Proof.
  unfold collect_defines. change (@nil (str * (str * fnsig * list stmt))) with (view l []). generalize (@nil (str * define)) as m.
  induction its as [|it its IH]; intros m; [reflexivity|]. cbn [fold_left gists flat_map]. rewrite fold_left_app, IH. f_equal.
  destruct it; cbn [gist_of fold_left]; try reflexivity; [rewrite view_sput|]; destruct (l _); reflexivity.
Qed.
Lemma collect_decl l its n : l n = true -> sget (collect_declares its) n = sget (fold_left put_declare (gists l its) []) n.
Proof.
  intros L. unfold collect_declares. assert (H : forall its m m', sget m n = sget m' n ->
    sget (fold_left (fun m it => match it with IDeclare n s => sput m n s | _ => m end) its m) n = sget (fold_left put_declare (gists l its) m') n).
  { clear its. induction its as [|it its IH]; intros m m' E; [exact E|]. cbn [fold_left gists flat_map]. rewrite fold_left_app. apply IH.
    destruct it; cbn [gist_of fold_left]; try exact E; (match goal with |- context [if ?b then _ else _] => destruct b eqn:K end); cbn [fold_left put_declare]; try exact E.
    - rewrite !sget_sput. destruct (str_eqb_spec name n); [reflexivity | exact E].
    - rewrite sget_sput. destruct (str_eqb_spec name n) as [->|_]; [rewrite L in K; discriminate K | exact E]. }
  apply H. reflexivity.
Qed.
Lemma gists_collect l a b : gists l a = gists l b -> view l (collect_defines a) = view l (collect_defines b) /\ forall n, l n = true -> sget (collect_declares b) n = sget (collect_declares a) n.
Proof. intros E. split; [rewrite !collect_view, E; reflexivity|]. intros n L. rewrite !(collect_decl l) by exact L. rewrite E. reflexivity. Qed.
Lemma bput_in {A} (m : list (N * A)) k v x : In x (bput m k v) -> snd x = v \/ In x m.
Proof.
  induction m as [|[a b] m IH]; cbn [bput]; [intros [<-|[]]; left; reflexivity|]. destruct (k <? a)%N; [intros [<-|I]; [left; reflexivity | right; exact I]|].
  destruct (a =? k)%N; [intros [<-|I]; [left; reflexivity | right; right; exact I]|]. intros [<-|I]; [right; left; reflexivity|]. destruct (IH I); [left; assumption | right; right; assumption].
Qed.
Lemma clear_thumb_from t m x : In x (clear_thumb t m) -> exists y, In y m /\ snd y = snd x.
Proof.
  unfold clear_thumb. destruct (is_thumb t); [|intros I; exists x; split; [exact I | reflexivity]].
  assert (H : forall m acc, In x (fold_left (fun m kv => bput m (N.ldiff (fst kv) 1) (snd kv)) m acc) -> (exists y, In y m /\ snd y = snd x) \/ In x acc).
  { clear m. induction m as [|k m IH]; intros acc I; [right; exact I|]. cbn [fold_left] in I. destruct (IH _ I) as [[y [J E]]|J]; [left; exists y; split; [right; exact J | exact E]|].
    apply bput_in in J. destruct J as [J|J]; [left; exists k; split; [left; reflexivity | symmetry; exact J] | right; exact J]. }
  intros I. destruct (H m [] I) as [R|[]]. exact R.
Qed.
Lemma linked_names t s l : (forall x n, In x (el_defined s) -> In n (sy_names (snd x)) -> l n = true) -> forall n, linked (clear_thumb t (el_defined s)) n = true -> l n = true.
Proof.
  intros H n L. apply existsb_exists in L. destruct L as [x [I J]]. apply existsb_exists in J. destruct J as [m [J E]]. destruct (str_eqb_spec n m) as [<-|]; [|discriminate E].
  destruct (clear_thumb_from _ _ _ I) as [y [K E']]. apply (H y n K). rewrite E'. exact J.
Qed.

(** * Any order *)
Lemma restore (p q : prog) : same_substance (@Permutation _) p q -> exists p', same_prog p p' /\ same_substance eq p' q.
Proof.
  intros [T S D U G X F C]. destruct (Permutation_map_inv _ _ (Permutation_sym F)) as [l [El Pl]].
  exists (mkProg (pg_target p) (l ++ filter (fun x => negb (linked (pg_defined p) (fst x))) (pg_defines p)) (pg_declares p) (pg_sizes p) (pg_defined p) (pg_undefined p) (pg_tags p) (pg_text p)). split.
  - constructor; cbn [pg_target pg_defines pg_declares pg_sizes pg_defined pg_undefined pg_tags pg_text]; try reflexivity. apply Permutation_sym. transitivity (filter (fun x => linked (pg_defined p) (fst x)) (pg_defines p) ++ filter (fun x => negb (linked (pg_defined p) (fst x))) (pg_defines p)).
    + clear. induction (pg_defines p) as [|x m IH]; [reflexivity|]. cbn [filter]. destruct (linked _ _); cbn [negb app]; [apply perm_skip; exact IH | apply Permutation_cons_app; exact IH].
    + apply Permutation_app_tail. exact Pl.
  - constructor; cbn [pg_target pg_defines pg_declares pg_sizes pg_defined pg_undefined pg_tags pg_text]; try assumption. rewrite El. unfold linked_defs. rewrite filter_app, map_app.
    assert (E1 : filter (fun x => linked (pg_defined p) (fst x)) l = l).
    { assert (H : forall x, In x l -> linked (pg_defined p) (fst x) = true) by (intros x I; apply (Permutation_in _ (Permutation_sym Pl)) in I; apply filter_In in I; exact (proj2 I)).
      clear - H. induction l as [|x l IH]; [reflexivity|]. cbn [filter]. rewrite (H x (or_introl eq_refl)). f_equal. apply IH. intros y I. apply H. right. exact I. }
    assert (E2 : filter (fun x => linked (pg_defined p) (fst x)) (filter (fun x => negb (linked (pg_defined p) (fst x))) (pg_defines p)) = []).
    { clear. induction (pg_defines p) as [|x m IH]; [reflexivity|]. cbn [filter]. destruct (linked _ _) eqn:K; cbn [negb filter]; [exact IH | rewrite K; exact IH]. }
    rewrite E1, E2, app_nil_r. reflexivity.
Qed.
Theorem any_order d o1 o2 start p q g1 c1 : wf_prog p -> (forall n f, In (n, f) (pg_defines q) -> n = d_name f) -> same_substance (@Permutation _) p q -> fair o1 -> fair o2 ->
  stable p -> one_void p -> sizes_u64 p -> report d o1 start p = Ret (g1, c1) ->
  exists g2 c2 f f', report d o2 start q = Ret (g2, c2) /\ same_nodes g1 g2 f f' /\ same_groups c1 c2 f /\ (log_settled p -> Permutation (fst (report_log d o1 start p)) (fst (report_log d o2 start q))).
Proof.
  intros W Wq Ss F1 F2 St Ov Sz R. destruct (restore p q Ss) as [p' [Sp Sq]]. destruct (same_report d o1 o2 start p p' g1 c1 W Sp F1 F2 St Ov Sz R) as [g2 [c2 [f [f' [R2 [K1 K2]]]]]].
  pose proof (report_sub d o2 p' q (wf_def_names _ (wf_same _ _ W Sp)) Wq Sq start) as E. exists g2, c2, f, f'. split; [rewrite <- R2, <- !report_erase, E; reflexivity|]. split; [exact K1|]. split; [exact K2|].
  intros Ls. rewrite E. exact (report_logs_perm d o1 o2 start p p' _ _ W Sp F1 F2 Ov Ls R R2).
Qed.

(** * Runs *)
Lemma no_ll d n : ends_with (lit ".ll") (join d (object_of n)) = false.
Proof.
  assert (H : forall x, ends_with (lit ".ll") (x ++ lit ".o") = false) by (intros x; unfold ends_with; rewrite rev_app_distr; reflexivity).
  assert (K : exists x, object_of n = x ++ lit ".o") by (unfold object_of; destruct (stem_ext n) as [[stem e]|]; eexists; reflexivity). destruct K as [x ->].
  unfold join. destruct (rev d) as [|c r]; [apply H|]. destruct (Ascii.eqb c "/"); rewrite ?app_assoc; apply H.
Qed.
Lemma collect_names its n d : In (n, d) (collect_defines its) -> n = d_name d.
Proof. intros I. apply (proj2 (c54_defines its)) in I. exact (proj1 I). Qed.

Section Edited.
Variables (demangle : str -> str) (l : str -> bool) (rd : str -> outcome str) (ds : list (str * define) -> list (str * define)) (os : orders) (w : world).
Hypothesis (Sw : sane w) (Pd : forall m, Permutation (ds m) m) (No : noise_only l rd w).
Notation w' := (edited rd ds os w).
(** How the tables of the two runs are related. *)
Variable R : list (str * (str * fnsig * list stmt)) -> list (str * (str * fnsig * list stmt)) -> Prop.
Hypothesis (Ro : forall m m', NoDup (map fst m) -> NoDup (map fst m') -> view l m = view l m' -> R (view l (w_defines_order w m)) (view l (ds m'))).
Hypothesis (Rf : forall k a b, R a b -> R (filter k a) (filter k b)).

Lemma archive_ed ms : archive_sizes w' ms = archive_sizes w ms.
Proof. induction ms as [|m ms IH]; [reflexivity|]. cbn [archive_sizes]. rewrite IH. reflexivity. Qed.
Lemma read_plain path : ends_with (lit ".ll") path = false -> w_read w' path = w_read w path.
Proof. intros E. destruct (no_files _ _ _ No path) as [F|[F _]]; [exact F | rewrite E in F; discriminate F]. Qed.
Lemma read_module path : read_to_string w' path = read_to_string w path \/ exists a b, read_to_string w path = Ret a /\ read_to_string w' path = Ret b /\ same_module l a b.
Proof.
  unfold read_to_string. change (w_utf8 w') with (w_utf8 w). change (w_read w') with rd. destruct (no_files _ _ _ No path) as [F|[_ [a [b [Ea [Eb [Ua [Ub M]]]]]]]]; [left; rewrite F; reflexivity|].
  right. exists a, b. rewrite Ea, Eb. cbn [bind]. rewrite Ua, Ub. repeat (split; [reflexivity|]). exact M.
Qed.
(** Both succeed with the same table, or stop alike. *)
Definition tables (x y : outcome (prog * outcome (list (N * str)))) : Prop :=
  match x, y with
  | Ret (p, s), Ret (q, t) => s = t /\ same_substance R p q /\ (forall n f, In (n, f) (pg_defines p) -> n = d_name f) /\ (forall n f, In (n, f) (pg_defines q) -> n = d_name f)
  | _, _ => x = y
  end.
Lemma tables_bind {A} (x : outcome A) f g : (forall a, x = Ret a -> tables (f a) (g a)) -> tables (bind x f) (bind x g).
Proof. intros H. destruct x; cbn [bind]; [apply H; reflexivity | reflexivity ..]. Qed.
Lemma same_parsed what path a b : same_module l a b -> parse_ir what path a = parse_ir what path b \/
  exists ia ib, parse_ir what path a = Ret ia /\ parse_ir what path b = Ret ib /\ gists l ia = gists l ib.
Proof. intros [->|[ia [ib [Ea [Eb G]]]]]; [left; reflexivity|]. right. exists ia, ib. unfold parse_ir. rewrite Ea, Eb. repeat (split; [reflexivity|]). exact G. Qed.
Lemma load_files_ed target file rlib ll : pick_file (w_args w) = Ret file -> tables (load_files w target file rlib ll) (load_files w' target file rlib ll).
Proof.
  intros Pf. unfold load_files. cbv zeta. change (w_args w') with (w_args w). change (w_path w') with (w_path w). change (w_host w') with (w_host w). change (w_dir w') with (w_dir w).
  change (w_object w') with (w_object w). change (w_archive w') with (w_archive w). change (w_executable w') with (w_executable w). change (w_text w') with (w_text w). change (w_symtab w') with (w_symtab w).
  apply tables_bind. intros path Ep. rewrite (read_plain path (no_elf _ _ _ No _ _ Pf Ep)). apply tables_bind. intros elf _. apply tables_bind. intros dir _. apply tables_bind. intros [[ll_name tm]|] _; [|reflexivity].
  rewrite (read_plain _ (no_ll _ _)). set (dirp := match a_bin (w_args w) with Some _ => join (parent path) (lit "deps") | None => parent path end).
  assert (Mo : forall path, (exists e, read_to_string w' path = e /\ read_to_string w path = e /\ forall t, e <> Ret t) \/ exists a b, read_to_string w path = Ret a /\ read_to_string w' path = Ret b /\ same_module l a b).
  { intros q. destruct (read_module q) as [F|F]; [|right; exact F]. destruct (read_to_string w q) as [t| | |] eqn:E; [right; exists t, t; rewrite F; repeat (split; [reflexivity|]); left; reflexivity | left; eexists; split; [exact F|split; [reflexivity|intros t; discriminate]] ..]. }
  destruct (Mo (join dirp ll_name)) as [[e [-> [-> Ne]]]|[a [b [-> [-> M1]]]]]; [destruct e as [t| | |]; [destruct (Ne t eq_refl) | reflexivity ..]|]. cbn [context bind].
  apply tables_bind. intros obj _. destruct (Mo ll) as [[e [-> [-> Ne]]]|[a' [b' [-> [-> M2]]]]]; [destruct e as [t| | |]; [destruct (Ne t eq_refl) | reflexivity ..]|]. cbn [context bind].
  assert (Pa : forall what path a b, same_module l a b -> (exists e, parse_ir what path a = e /\ parse_ir what path b = e /\ forall t, e <> Ret t) \/ exists ia ib, parse_ir what path a = Ret ia /\ parse_ir what path b = Ret ib /\ gists l ia = gists l ib).
  { intros what q x y M. destruct (same_parsed what q x y M) as [F|F]; [|right; exact F]. destruct (parse_ir what q y) as [t| | |] eqn:E; [right; exists t, t; rewrite F; repeat (split; [reflexivity|]); reflexivity | left; eexists; split; [exact F|split; [reflexivity|intros t; discriminate]] ..]. }
  destruct (Pa (lit "failed to parse application's LLVM IR from `") (join dirp ll_name) _ _ M1) as [[e [-> [-> Ne]]]|[ia [ib [-> [-> G1]]]]]; [destruct e as [t| | |]; [destruct (Ne t eq_refl) | reflexivity ..]|]. cbn [bind].
  destruct (Pa (lit "failed to parse `compiler_builtins` LLVM IR from `") ll _ _ M2) as [[e [-> [-> Ne]]]|[ja [jb [-> [-> G2]]]]]; [destruct e as [t| | |]; [destruct (Ne t eq_refl) | reflexivity ..]|]. cbn [bind].
  apply tables_bind. intros sizes _. apply tables_bind. intros ms _. rewrite archive_ed. apply tables_bind. intros more _. apply tables_bind. intros symbols Es.
  assert (G : gists l (ia ++ ja) = gists l (ib ++ jb)) by (unfold gists in *; rewrite !flat_map_app, G1, G2; reflexivity). destruct (gists_collect _ _ _ G) as [V D].
  pose proof (linked_names (classify_target target) symbols l (fun x n => no_names _ _ _ No elf symbols x n Es)) as Ln.
  split; [reflexivity|]. split; [constructor; cbn [pg_target pg_defines pg_declares pg_sizes pg_defined pg_undefined pg_tags pg_text]; try reflexivity|split].
  - change (w_defines_order w') with ds. unfold linked_defs. fold (view (linked (clear_thumb (classify_target target) (el_defined symbols))) (w_defines_order w (collect_defines (ia ++ ja)))).
    fold (view (linked (clear_thumb (classify_target target) (el_defined symbols))) (ds (collect_defines (ib ++ jb)))). rewrite !(view_in l _ _ Ln). apply Rf. apply Ro; [apply c54_defines | apply c54_defines | exact V].
  - intros n K. apply D. apply Ln. exact K.
  - cbn [pg_defines]. intros n f I. apply (Permutation_in _ (sane_defines _ Sw _)) in I. exact (collect_names _ _ _ I).
  - cbn [pg_defines]. change (w_defines_order w') with ds. intros n f I. apply (Permutation_in _ (Pd _)) in I. exact (collect_names _ _ _ I).
Qed.
Lemma sub_tags p q s : same_substance R p q -> same_substance R (with_tags p s) (with_tags q s).
Proof. intros [T S D U G X F C]. constructor; assumption || reflexivity. Qed.
Lemma touch_ed : touch w' = touch w.
Proof.
  assert (H : forall es, touch_first w' es = touch_first w es) by (induction es as [|x r IH]; [reflexivity|]; cbn [touch_first]; rewrite IH; reflexivity).
  unfold touch. rewrite H. reflexivity.
Qed.
End Edited.

(** ** The same orders: the same run *)
Section Exactly.
Variables (demangle : str -> str) (l : str -> bool) (rd : str -> outcome str) (ds : list (str * define) -> list (str * define)) (w : world).
Hypothesis (Sw : sane w) (Pd : forall m, Permutation (ds m) m) (No : noise_only l rd w).
Hypothesis (Ro : forall m m', NoDup (map fst m) -> NoDup (map fst m') -> view l m = view l m' -> view l (w_defines_order w m) = view l (ds m')).
Notation w' := (edited rd ds (w_orders w) w).
Lemma analyse_ed target file paths : pick_file (w_args w) = Ret file -> analyse demangle w' target file paths = analyse demangle w target file paths.
Proof.
  intros Pf. unfold analyse. destruct paths as [[rlib|] [ll|]]; try reflexivity. pose proof (load_files_ed l rd ds (w_orders w) w Sw Pd No eq Ro (fun k a b E => f_equal (filter k) E) target file rlib ll Pf) as T.
  unfold loading. destruct (load_files w target file rlib ll) as [[p st]| | |], (load_files w' target file rlib ll) as [[q st']| | |]; try discriminate T; try (unfold lift, ibind; cbn [fst snd]; injection T as <-; reflexivity); [|reflexivity].
  destruct T as [<- [Ss [Wp Wq]]]. rewrite !ibind_ret. change (w_orders w') with (w_orders w). change (w_args w') with (w_args w).
  destruct st as [s| | |]; cbn [read_symtab].
  - change (@nil event, Ret (with_tags p s)) with (iret (with_tags p s)). change (@nil event, Ret (with_tags q s)) with (iret (with_tags q s)). rewrite !ibind_iret. rewrite (report_sub demangle (w_orders w) (with_tags p s) (with_tags q s) Wp Wq (sub_tags eq p q s Ss)). reflexivity.
  - rewrite (early_sub demangle p q Wp Wq Ss). unfold ibind, logged. cbn [fst snd bind]. destruct (snd (early_log demangle p)); reflexivity.
  - rewrite (early_sub demangle p q Wp Wq Ss). unfold ibind, logged. cbn [fst snd bind]. destruct (snd (early_log demangle p)); reflexivity.
  - rewrite (early_sub demangle p q Wp Wq Ss). unfold ibind, logged. cbn [fst snd bind]. destruct (snd (early_log demangle p)); reflexivity.
Qed.
Theorem main_ed : main demangle w' = main demangle w.
Proof.
  unfold main. replace (run demangle w') with (run demangle w); [reflexivity|]. symmetry.
  unfold run. change (w_wrapper w') with (w_wrapper w). rewrite (sane_user _ Sw).
  change (w_meta w') with (w_meta w). apply ibind_ext. intros [] _. change (w_hash w') with (w_hash w). change (w_override w') with (w_override w).
  destruct (_ && _)%bool; [reflexivity|]. cbv zeta. change (w_args w') with (w_args w). apply ibind_ext. intros file Pf. change (w_project w') with (w_project w). apply ibind_ext. intros config _.
  change (w_host w') with (w_host w). apply ibind_ext. intros _ _. change (ask_cfg w') with (ask_cfg w). apply ibind_ext. intros cfg _. change (w_exe w') with (w_exe w).
  apply ibind_ext. intros exe _. rewrite touch_ed. apply ibind_ext. intros _ _. apply ibind_ext. intros _ _.
  unfold build_and_analyse. apply ibind_ext. intros _ _. change (w_cargo w') with (w_cargo w). apply ibind_ext. intros child _. change (w_utf8 w') with (w_utf8 w). apply ibind_ext. intros paths _.
  destruct (snd child) as [[|c|c]|]; try reflexivity. apply analyse_ed. exact Pf.
Qed.
End Exactly.

(** ** Any orders: a report that shows the same *)
Lemma perm_filter {A} (k : A -> bool) a b : Permutation a b -> Permutation (filter k a) (filter k b).
Proof.
  induction 1 as [|x a b _ IH|x y a|a b c _ IH1 _ IH2]; [reflexivity | | |exact (perm_trans IH1 IH2)]; cbn [filter].
  - destruct (k x); [apply perm_skip|]; exact IH.
  - destruct (k x), (k y); try reflexivity. apply perm_swap.
Qed.
Section Reordered.
Variables (demangle : str -> str) (l : str -> bool) (rd : str -> outcome str) (ds : list (str * define) -> list (str * define)) (os : orders) (w : world).
Hypothesis (Sw : sane w) (Pd : forall m, Permutation (ds m) m) (Fo : fair os) (No : noise_only l rd w) (Nf : forall k, w_fault w k = None).
Notation w' := (edited rd ds os w).
Lemma perm_views m m' : NoDup (map fst m) -> NoDup (map fst m') -> view l m = view l m' -> Permutation (view l (w_defines_order w m)) (view l (ds m')).
Proof.
  intros _ _ E. transitivity (view l m); [|rewrite E]; unfold view; apply Permutation_map, perm_filter; [apply (sane_defines _ Sw) | apply Permutation_sym, Pd].
Qed.
Lemma follows_analyse_ed target file paths : pick_file (w_args w) = Ret file -> follows demangle w (analyse demangle w target file paths) (analyse demangle w' target file paths).
Proof.
  intros Pf t E. unfold analyse in *. destruct paths as [[rlib|] [ll|]]; try discriminate E. right. exists target, file, rlib, ll.
  destruct (loading demangle w target file rlib ll) as [t0 [p| | |]] eqn:L; try discriminate E. unfold ibind in E. cbn [fst snd] in E.
  destruct (loading_inv demangle w _ _ _ _ _ _ L) as [-> [p0 [s [L0 ->]]]].
  pose proof (load_files_ed l rd ds os w Sw Pd No (@Permutation _) perm_views (fun k a b => perm_filter k a b) target file rlib ll Pf) as T. rewrite L0 in T.
  destruct (load_files w' target file rlib ll) as [[q0 st']| | |] eqn:L1; try discriminate T. destruct T as [<- [Sp [_ Wq]]]. apply (sub_tags _ _ _ s) in Sp.
  exists (with_tags p0 s). assert (Ld : load w target file rlib ll = Ret (with_tags p0 s)) by (unfold load; rewrite L0; reflexivity). destruct (loaded w target file rlib ll _ Sw Ld) as [Wf An]. split; [exact An|]. intros [St [Ov Sz]].
  change (pg_defines q0) with (pg_defines (with_tags q0 s)) in Wq. set (p := with_tags p0 s) in *. set (q := with_tags q0 s) in *. unfold logged in E. cbn [fst snd] in E. rewrite report_erase in E.
  destruct (report demangle (w_orders w) (a_start (w_args w)) p) as [[g1 c1]| | |] eqn:R; try discriminate E. cbn [fst snd] in E. rewrite (emit_all demangle w Nf) in E. cbn [fst snd] in E. injection E as <-.
  destruct (any_order demangle (w_orders w) os (a_start (w_args w)) p q g1 c1 Wf Wq Sp (sane_orders _ Sw) Fo St Ov Sz R) as [g2 [c2 [f [f' [R2 [Sn [Sg Lg]]]]]]].
  unfold loading, ibind, lift. rewrite L1. cbn [fst snd read_symtab iret]. unfold logged. cbn [fst snd]. rewrite report_erase. fold q. change (w_orders w') with os. change (w_args w') with (w_args w). rewrite R2. cbn [fst snd].
  change (write_output w' demangle g2 c2) with (write_output w demangle g2 c2). rewrite (emit_all demangle w Nf). cbn [fst snd app].
  eexists. split; [reflexivity|]. split; [rewrite !deeds_app, !deeds_log; reflexivity|]. exists [], g1, c1, g2, c2, f, f'. rewrite !printed_app, !printed_log. repeat (split; [first [reflexivity | exact Sn | exact Sg]|]). intros Ls. rewrite !messages_app, !logs_messages. cbn [messages select]. rewrite !app_nil_r. exact (Lg Ls).
Qed.
Lemma follows_run_ed : follows demangle w (run demangle w) (run demangle w').
Proof.
  unfold run. change (w_wrapper w') with (w_wrapper w). rewrite (sane_user _ Sw).
  change (w_meta w') with (w_meta w). apply follows_bind; [reflexivity|]. intros [] _. change (w_hash w') with (w_hash w). change (w_override w') with (w_override w).
  destruct (_ && _)%bool; [intros t E; discriminate E|]. cbv zeta. change (w_args w') with (w_args w). apply follows_bind; [reflexivity|]. intros file Pf. change (w_project w') with (w_project w). apply follows_bind; [reflexivity|]. intros config _.
  change (w_host w') with (w_host w). apply follows_bind; [reflexivity|]. intros _ _. change (ask_cfg w') with (ask_cfg w). apply follows_bind; [reflexivity|]. intros cfg _. change (w_exe w') with (w_exe w).
  apply follows_bind; [reflexivity|]. intros exe _. rewrite touch_ed. apply follows_bind; [apply printed_touch|]. intros _ _. apply follows_bind; [destruct (a_verbose _); reflexivity|]. intros _ _.
  unfold build_and_analyse. apply follows_bind; [reflexivity|]. intros _ _. change (w_cargo w') with (w_cargo w). apply follows_bind; [reflexivity|]. intros child _. change (w_utf8 w') with (w_utf8 w). apply follows_bind; [apply read_silent|]. intros paths _.
  destruct (snd child) as [[|c|c]|]; [apply follows_analyse_ed; exact Pf | intros t E; discriminate E | intros t E; discriminate E | intros t E; discriminate E].
Qed.
Theorem run_ed t : main demangle w = (t, 0%Z) -> exists target file rlib ll p, analyses w target file rlib ll p /\
  (ordered p -> exists t' g1 c1 g2 c2 f f', main demangle w' = (t', 0%Z) /\ deeds t' = deeds t /\ printed t = [text_in (a_format (w_args w)) demangle g1 c1] /\
     printed t' = [text_in (a_format (w_args w)) demangle g2 c2] /\ same_nodes g1 g2 f f' /\ same_groups c1 c2 f /\ (log_settled p -> Permutation (messages t) (messages t'))).
Proof.
  intros M. pose proof (c60 demangle w t 0%Z (sane_user _ Sw) M) as [[C _] [C2 _]]. destruct (C eq_refl) as [u [out Eu]].
  unfold main in M. destruct (run demangle w) as [tr [z| | |]] eqn:R; try discriminate M. injection M as -> ->.
  assert (P : printed t = [out]).
  { destruct C2 as [N|[a [b [c [Et [Pa Q]]]]]]; [rewrite Eu, printed_app in N; cbn in N; destruct (printed u); discriminate N|]. rewrite Et in *. destruct Q as [->|[m ->]].
    - apply app_inj_tail in Eu. destruct Eu as [-> Eu]. injection Eu as ->. rewrite printed_app, Pa. reflexivity.
    - exfalso. change (EOut b :: [EErr m]) with ([EOut b] ++ [EErr m]) in Eu. rewrite app_assoc in Eu. apply app_inj_tail in Eu. destruct Eu as [_ Eu]. discriminate Eu. }
  destruct (follows_run_ed t R) as [N|[target [file [rlib [ll [p [A K]]]]]]]; [rewrite N in P; discriminate P|]. exists target, file, rlib, ll, p. split; [exact A|]. intros O.
  destruct (K O) as [t' [E' [D [pre [g1 [c1 [g2 [c2 [f [f' [P1 [P2 [Sn [Sg Lg]]]]]]]]]]]]]]. rewrite P in P1. destruct pre as [|x pre]; [|destruct pre; discriminate P1].
  exists t', g1, c1, g2, c2, f, f'. unfold main. rewrite E'. repeat (split; [first [reflexivity | exact D | (rewrite P; exact P1) | exact P2 | exact Sn | exact Sg]|]). exact Lg.
Qed.
End Reordered.
Theorem any_order_wf d o1 o2 start p q g1 c1 : wf_prog p -> wf_prog q -> same_substance (@Permutation _) p q -> fair o1 -> fair o2 -> stable p -> one_void p -> sizes_u64 p ->
  report d o1 start p = Ret (g1, c1) -> exists g2 c2 f f', report d o2 start q = Ret (g2, c2) /\ same_nodes g1 g2 f f' /\ same_groups c1 c2 f /\ (log_settled p -> Permutation (fst (report_log d o1 start p)) (fst (report_log d o2 start q))).
Proof. intros W Wq. apply any_order; [exact W | exact (wf_def_names _ Wq)]. Qed.
Theorem sub_output d o start p q : wf_prog p -> wf_prog q -> same_substance eq p q ->
  report_log d o start q = report_log d o start p /\ forall f, output d o start f q = output d o start f p.
Proof.
  intros W Wq Ss. pose proof (report_sub d o p q (wf_def_names _ W) (wf_def_names _ Wq) Ss start) as R. split; [exact R|]. intros f. unfold output. rewrite <- !report_erase, R. reflexivity.
Qed.
