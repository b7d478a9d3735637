(** Lemmas: when the tool succeeds. *)
From Coq Require Import Permutation Sorted.
From Verif Require Import M_base L_base M_stack M_graph M_names L_names M_thumb M_ty M_parse M_render M_build M_run M_wrapper M_driver.
From Verif Require Import S_names S_graph S_render S_build S_run S_driver L_build1 L_build3 L_build4 L_build6 L_build8 L_build9 L_log4 L_log7 L_run L_run2 L_driver1 L_driver2 L_path L_write L_driver3 L_driver4 L_driver5.

(** ** The order of the definitions *)
Lemma live_somewhere p n : (exists i, live p n i) \/ forall i, ~ live p n i.
Proof.
  destruct (search (length (pg_defined p)) (live p n)) as [[i [_ Y]]|N].
  - intros i _. pose proof (live_find p n i) as K. destruct (nth_error (pg_defined p) i) as [x|]; [|right; tauto]. destruct (smem n (real_names x)); [left; tauto|]. right. intros L. apply K in L. discriminate L.
  - left. exists i. exact Y.
  - right. intros i L. exact (N i (live_lt p _ _ L) L).
Qed.
Lemma trace_total p ds : exists tr, trace p ds tr.
Proof.
  induction ds as [|[n d] ds [tr T]]; [exists []; constructor|]. destruct (live_somewhere p n) as [[i L]|N]; eexists; [eapply tr_kept; eassumption | eapply tr_removed; eassumption].
Qed.
Section Understood.
Variable (p : prog).
Hypothesis (W : wf_prog p).
Hypothesis (Um : forall i k, body p i (BitcastCall (Some memcmp)) -> body p k (DirectCall memcmp) -> (exists j, live p memcmp j) \/ In memcmp (pg_undefined p)).
Lemma ok_less pre st : stmt_ok p pre st -> stmt_ok p [] st.
Proof. destruct st as [expr|[name|]|f|sg| | |]; cbn; tauto. Qed.
Lemma stmts_any : (forall tr pre i st post, trace p (pg_defines p) tr -> tr = pre ++ (i, st) :: post -> stmt_ok p pre st) <-> forall i st, body p i st -> stmt_ok p [] st.
Proof.
  split.
  - intros H i st B. destruct (trace_total p (pg_defines p)) as [tr T]. apply (trace_body p W _ T) in B. apply in_split in B. destruct B as [pre [post E]]. exact (ok_less _ _ (H tr pre i st post T E)).
  - intros H tr pre i st post T E.
    assert (B : body p i st) by (apply (trace_body p W _ T); rewrite E; apply in_or_app; right; left; reflexivity).
    specialize (H i st B). destruct st as [expr|[name|]|f|sg| | |]; cbn in *; try tauto. destruct H as [H1 H2]. split; [|exact H2]. intros N. destruct (H1 N) as [K|[K|[-> _]]]; [left; exact K | right; left; exact K|].
    destruct (Exists_dec _ pre (is_cast memcmp)) as [Y|Z].
    + apply Exists_exists in Y. destruct Y as [y [Y [k ->]]]. destruct (Um k i) as [K|K]; [apply (trace_body p W _ T); rewrite E; apply in_or_app; left; exact Y | exact B | left; exact K | right; left; exact K].
    + right. right. split; [reflexivity|]. intros k I. apply Z. apply Exists_exists. exists (k, BitcastCall (Some memcmp)). split; [exact I | exists k; reflexivity].
Qed.
End Understood.
Lemma same_wf p q : same_prog p q -> wf_prog p -> wf_prog q.
Proof.
  intros S W. constructor.
  - apply (Permutation_NoDup (Permutation_map fst (Permutation_sym (sp_defines _ _ S)))). exact (wf_defines _ W).
  - intros n d I. apply (wf_def_names _ W). exact (Permutation_in _ (sp_defines _ _ S) I).
  - apply (Permutation_NoDup (Permutation_map fst (Permutation_sym (sp_declares _ _ S)))). exact (wf_declares _ W).
  - apply (Permutation_NoDup (Permutation_map fst (Permutation_sym (sp_sizes _ _ S)))). exact (wf_sizes _ W).
  - rewrite (sp_defined _ _ S). exact (wf_addrs _ W).
  - rewrite (sp_defined _ _ S). exact (wf_names _ W).
Qed.
Lemma s_agreed p q i a : same_prog p q -> agreed p i a -> agreed q i a.
Proof.
  intros S [A B]. split; [exact A|]. intros m L. apply (s_llvm_size p q S) in L. destruct (B m L) as [l [U K]]. exists l. split; [exact (s_usage p q S _ _ U) | exact K].
Qed.
Lemma s_undefined p q f : same_prog p q -> (In f (pg_undefined p) <-> In f (pg_undefined q)).
Proof. intros S. split; apply Permutation_in; [symmetry|]; exact (sp_undefined _ _ S). Qed.
Lemma s_code_ok p q i x : same_prog p q -> code_ok p i x -> code_ok q i x.
Proof.
  intros S [addr [size [a [[N [A G]] [B1 B2]]]]]. exists addr, size, a. split; [split; [exact N|]; split; [apply (s_analysed p q S); exact A | exact (s_agreed p q i a S G)]|].
  split; [intros off I; destruct (B1 off I) as [j K] | intros off I L; destruct (B2 off I L) as [j K]]; exists j; apply (s_at_address p q S); exact K.
Qed.
Lemma understood_once p q : wf_prog p -> wf_prog q -> same_prog p q ->
  (forall i k, body p i (BitcastCall (Some memcmp)) -> body p k (DirectCall memcmp) -> (exists j, live p memcmp j) \/ In memcmp (pg_undefined p)) ->
  understood p -> understood q.
Proof.
  intros W Wq S Um [U1 U2 U3]. constructor.
  - rewrite (sp_defined _ _ S). exact U1.
  - apply (stmts_any q Wq).
    + intros i k B1 B2. apply (s_body p q S) in B1, B2. destruct (Um i k B1 B2) as [[j L]|L]; [left; exists j; now apply (s_live p q S) | right; now apply (s_undefined p q _ S)].
    + intros i st B. apply (s_body p q S) in B. pose proof (proj1 (stmts_any p W Um) U2 i st B) as K. destruct st as [expr|[name|]|f|sg| | |]; cbn in *; try tauto. destruct K as [K1 K2]. rewrite (sp_target _ _ S). split; [|exact K2].
      intros N. destruct (K1 N) as [[j L]|[L|L]]; [left; exists j; now apply (s_live p q S) | right; left; now apply (s_undefined p q _ S) | right; right; exact L].
  - rewrite (sp_target _ _ S), (sp_text _ _ S), (sp_defined _ _ S). intros T X i x H. exact (s_code_ok p q i x S (U3 T X i x H)).
Qed.
Theorem understood_same p q : wf_prog p -> same_prog p q ->
  (forall i k, body p i (BitcastCall (Some memcmp)) -> body p k (DirectCall memcmp) -> (exists j, live p memcmp j) \/ In memcmp (pg_undefined p)) ->
  (understood p <-> understood q).
Proof.
  intros W S Um. pose proof (same_wf p q S W) as Wq. pose proof (same_sym p q S) as S'. split; [now apply understood_once|]. apply understood_once; try assumption.
  intros i k B1 B2. apply (s_body p q S) in B1, B2. destruct (Um i k B1 B2) as [[j L]|L]; [left; exists j; now apply (s_live p q S) | right; now apply (s_undefined p q _ S)].
Qed.

(** ** The graph and the report *)
Lemma output_iff demangle o start f p : wf_prog p -> fair o -> one_void p -> start = None \/ stable p ->
  ((exists out, output demangle o start f p = Ret out) <-> understood p /\ names_known demangle p start).
Proof.
  intros W Fo Ov St. pose proof (build_iff demangle o p W) as B. split.
  - intros [out O]. unfold output in O. apply bind_Ret in O. destruct O as [[g cs] [R _]].
    assert (X : exists b, build demangle o p = Ret b) by (unfold report in R; apply bind_Ret in R; destruct R as [b [R _]]; exists b; exact R).
    split; [apply B; exact X|]. destruct X as [b E]. apply (report_iff demangle o start p b W Fo Ov St E). exists g, cs. exact R.
  - intros [U N]. apply B in U. destruct U as [b E]. destruct (report_finishes demangle o start p b W Fo E N) as [g [cs R]]. unfold output. rewrite R. cbn [bind]. eexists. reflexivity.
Qed.
Lemma output_enough demangle o start f p : wf_prog p -> fair o ->
  understood p -> names_known demangle p start -> exists out, output demangle o start f p = Ret out.
Proof.
  intros W Fo U N. apply (build_iff demangle o p W) in U. destruct U as [b E]. destruct (report_finishes demangle o start p b W Fo E N) as [g [cs R]]. unfold output. rewrite R. cbn [bind]. eexists. reflexivity.
Qed.

(** ** The files *)
Lemma map_Ret_inj {A} : forall a b : list A, map Ret a = map Ret b -> a = b.
Proof. induction a as [|x a IH]; intros [|y b] E; try discriminate E; [reflexivity|]. injection E as -> E. now rewrite (IH b E). Qed.
Lemma archive_total w : forall ms r, object_sizes w ms r -> exists r', archive_sizes w (map Ret ms) = Ret r'.
Proof.
  induction 1 as [|m ms buf s r B D O _ [r' IH]|m ms r B _ [r' IH]]; cbn [map archive_sizes bind]; [now exists []| |].
  - apply builtins_object_spec in B. rewrite B, D. cbn [bind]. rewrite O. cbn [bind]. rewrite IH. cbn [bind]. eexists. reflexivity.
  - destruct (mb_utf8 m && _) eqn:E; [apply builtins_object_spec in E; now destruct B|]. exists r'. exact IH.
Qed.
Lemma kind_classified t k : target_kind t k -> classify_target t = k.
Proof.
  intros K. assert (H : forall a b, target_kind t a -> target_kind t b -> a = b).
  { intros a b H1 H2. destruct H1 as [|t A|t A]; inversion H2 as [|? B|? B]; subst; try reflexivity; exfalso; cbn [map In] in *.
    - repeat (destruct B as [B|B]; [discriminate B|]). destruct B.
    - apply B. left. reflexivity.
    - repeat (destruct A as [A|A]; [discriminate A|]). destruct A.
    - apply B. right. exact A.
    - apply A. left. reflexivity.
    - apply A. right. exact B. }
  exact (H _ _ (classify_kind t) K).
Qed.
Lemma parse_ir_ok what path text x : parse text = Parsed x -> parse_ir what path text = Ret x.
Proof. unfold parse_ir. now intros ->. Qed.
Lemma two_places {A} (e e' : A) : forall a b a' b', a ++ e :: b = a' ++ e' :: b' -> e = e' \/ (In e a' /\ In e' b) \/ (In e b' /\ In e' a).
Proof.
  induction a as [|x a IH]; intros b [|y a'] b' E; cbn [app] in E; injection E as E1 E2.
  - left. exact E1.
  - right. left. split; [left; symmetry; exact E1 | rewrite E2; apply in_or_app; right; left; reflexivity].
  - right. right. split; [rewrite <- E2; apply in_or_app; right; left; reflexivity | left; exact E1].
  - destruct (IH _ _ _ E2) as [H|[[H1 H2]|[H1 H2]]]; [left; exact H | right; left; split; [right; exact H1 | exact H2] | right; right; split; [exact H1 | right; exact H2]].
Qed.
Theorem load_iff w target file rlib ll : sane w ->
  ((exists p, load w target file rlib ll = Ret p) <-> exists p, analyses w target file rlib ll p).
Proof.
  intros S. split.
  - intros [p L]. exists p. exact (proj2 (loaded w target file rlib ll p S L)).
  - intros [p A]. destruct A as [path exe_dir dir ll_path obj_path es name t text items btext bitems obj sizes ms more elf el P Hd Dir A1 I A2 In1 In2 A3 A4 A5 A6 _ _ A7 A8 A9 A10 _ A11 A12 _ A13 _ A14].
    apply holder_fun in Hd. subst exe_dir. apply inside_fun in In1, In2. subst ll_path obj_path. apply read_text in A3, A5.
    rewrite load_flat. cbv zeta. unfold executable in P. rewrite P. cbn [bind]. rewrite (proj2 (context_ret _ _ _ _) A11). cbn [bind].
    assert (D : match a_bin (w_args w) with Some _ => join (parent path) (lit "deps") | None => parent path end = dir).
    { unfold ir_dir in Dir. destruct (a_bin (w_args w)); [symmetry; now apply inside_fun | now symmetry]. }
    rewrite D. clear D. rewrite A1. cbn [bind].
    destruct (proj2 (pick_inspects file es) I) as [best B]. rewrite B. cbn [bind].
    pose proof (c49_newest file es best B) as C.
    assert (X : exists t', best = Some (name ++ lit ".ll", t')).
    { destruct best as [[n' t']|].
      - exists t'. assert (n' = name ++ lit ".ll"); [|now subst]. destruct A2 as [a [e [b [H1 [H2 [H3 [H4 [H5 H6]]]]]]]]. destruct C as [a' [e' [b' [K1 [K2 [K3 [K4 [K5 K6]]]]]]]].
        rewrite H1 in K1. rewrite H2 in H4. rewrite K2 in K4. destruct (two_places _ _ _ _ _ _ K1) as [->|[[D D']|[D D']]]; [congruence| |].
        + pose proof (K5 e t D H4 H3). pose proof (H6 e' t' D' K4 K3). lia.
        + pose proof (H5 e' t' D' K4 K3). pose proof (K6 e t D H4 H3). lia.
      - exfalso. destruct A2 as [a [e [b [H1 [H2 [_ [H3 _]]]]]]]. apply (C e); [rewrite H1; apply in_or_app; right; left; reflexivity | rewrite <- H2; exact H3]. }
    destruct X as [t' ->]. rewrite (proj2 (context_ret _ _ _ _) A3). cbn [bind].
    assert (Nn : name <> []). { destruct A2 as [a [e [b [_ [_ [_ [[h F] _]]]]]]]. rewrite !app_assoc in F. apply app_inv_tail in F. rewrite F. destruct (crate_name file); discriminate. }
    rewrite (object_of_ll name Nn), (proj2 (context_ret _ _ _ _) A7). cbn [bind]. rewrite (proj2 (context_ret _ _ _ _) A5). cbn [bind]. rewrite (parse_ir_ok _ _ _ _ A4). cbn [bind]. rewrite (parse_ir_ok _ _ _ _ A6). cbn [bind]. cbv zeta.
    rewrite A8. cbn [bind]. rewrite (proj2 (context_ret _ _ _ _) A9). cbn [bind]. destruct (archive_total w ms more A10) as [r ->]. cbn [bind]. rewrite A12. cbn [bind]. rewrite (kind_classified _ _ A13).
    destruct (is_thumb (pg_target p)) eqn:T; [|eexists; reflexivity]. destruct (A14 eq_refl) as [_ [[st [-> _]] _]]. cbn [bind]. eexists. reflexivity.
Qed.

(** ** The whole run *)
Lemma run_started demangle w : w_wrapper w = false ->
  ((exists command, In (lit "cargo", command) (commands (fst (run demangle w)))) <->
   w_meta w = Ret tt /\ accepted w /\ (exists file, one_artifact (w_args w) file) /\
   exists config, w_project w = Ret config /\ (exists cfg, w_cfg w (target_of w config) = Ret cfg /\ w_utf8 w cfg = true) /\ (exists exe, w_exe w = Ret exe) /\ exists r, touches w r).
Proof.
  intros U. unfold run. rewrite U. destruct (outcome_dec (w_meta w)) as [[[] M]|S].
  2:{ unfold lift. match goal with |- context [ibind ([], w_meta w) ?f] => destruct (ibind_stop [] _ f S) as [K1 K2] end. rewrite K1. split; [intros [c []] | intros [M _]; now destruct (S tt)]. }
  rewrite M, ibind_ret. destruct (negb (oeqb (w_hash w) (Some supported_hash)) && negb (oeqb (w_override w) (Some unsupported_value))) eqn:A.
  { split; [intros [c []] | intros [_ [K _]]; apply accepted_spec in K; congruence]. }
  apply accepted_spec in A. cbv zeta. destruct (outcome_dec (pick_file (w_args w))) as [[file Ef]|S].
  2:{ unfold lift. match goal with |- context [ibind ([], pick_file (w_args w)) ?f] => destruct (ibind_stop [] _ f S) as [K1 K2] end. rewrite K1. split; [intros [c []] | intros [_ [_ [[file F] _]]]; apply artifact in F; now destruct (S file)]. }
  rewrite Ef, ibind_ret. destruct (outcome_dec (w_project w)) as [[config Ec]|S].
  2:{ unfold lift. match goal with |- context [ibind ([], w_project w) ?f] => destruct (ibind_stop [] _ f S) as [K1 K2] end. rewrite K1. split; [intros [c []] | intros [_ [_ [_ [config [F _]]]]]; now destruct (S config)]. }
  rewrite Ec, ibind_ret, target_of_eq, ibind_say. cbn [fst snd].
  set (c := ECmd (lit "rustc") [] _).
  destruct (ask_spec w (target_of w config)) as [[cfg [Eg [Eu Ea]]]|[S Sx]].
  2:{ unfold lift. match goal with |- context [ibind ([], ask_cfg w (target_of w config)) ?f] => destruct (ibind_stop [] _ f S) as [K1 K2] end. rewrite K1. split; [intros [d [D|[]]]; discriminate D|].
      intros [_ [_ [_ [config' [F [[cfg [G Gu]] _]]]]]]. injection F as <-. now destruct (Sx cfg). }
  rewrite Ea, ibind_ret. destruct (outcome_dec (w_exe w)) as [[exe Ee]|S].
  2:{ unfold lift. match goal with |- context [ibind ([], w_exe w) ?f] => destruct (ibind_stop [] _ f S) as [K1 K2] end. rewrite K1. split; [intros [d [D|[]]]; discriminate D|].
      intros [_ [_ [_ [config' [_ [_ [[exe G] _]]]]]]]. now destruct (S exe). }
  rewrite Ee, ibind_ret. destruct (touch_spec w) as [[r [Tr Et]]|[T1 T2]].
  2:{ destruct (touch w) as [te o] eqn:Et. cbn [fst snd] in T1, T2. subst te. match goal with |- context [ibind ([], o) ?f] => destruct (ibind_stop [] o f T2) as [K1 K2] end. rewrite K1. split; [intros [d [D|[]]]; discriminate D|].
      intros [_ [_ [_ [config' [_ [_ [_ [r G]]]]]]]]. apply touches_touch in G. rewrite Et in G. injection G as _ G. now destruct (T2 tt). }
  rewrite Et, ibind_go. cbn [fst snd]. set (te := match r with Some f => [ETouch f] | None => [] end). set (command := cargo_args (w_args w) file (no_std (buf_lines cfg))). split.
  - intros _. split; [reflexivity|]. split; [exact A|]. split; [exists file; now apply artifact|]. exists config. split; [reflexivity|]. split; [exists cfg; now split|]. split; [exists exe; reflexivity | exists r; exact Tr].
  - intros _. exists command. destruct (build_shape demangle w (target_of w config) file exe command) as [tail [K _]].
    change (c :: te ++ ?x) with ([c] ++ te ++ x). rewrite !commands_app. apply in_or_app. right. apply in_or_app. right.
    destruct (a_verbose (w_args w)); [rewrite ibind_say | rewrite ibind_iret]; cbn [fst snd]; [change (EVerbose ?a ?b :: ?x) with ([EVerbose a b] ++ x); rewrite commands_app; apply in_or_app; right|]; rewrite K; left; reflexivity.
Qed.
Theorem build_started demangle w t c : w_wrapper w = false -> main demangle w = (t, c) ->
  ((exists command, In (lit "cargo", command) (commands t)) <->
   w_meta w = Ret tt /\ accepted w /\ (exists file, one_artifact (w_args w) file) /\
   exists config, w_project w = Ret config /\ (exists cfg, w_cfg w (target_of w config) = Ret cfg /\ w_utf8 w cfg = true) /\ (exists exe, w_exe w = Ret exe) /\ exists r, touches w r).
Proof.
  intros U M. destruct (main_run demangle w) as [extra [E [Ec _]]]. rewrite E in M. injection M as <- _. rewrite commands_app, Ec, app_nil_r. now apply run_started.
Qed.
Theorem succeeds demangle w t c command ns code : sane w -> main demangle w = (t, c) -> In (lit "cargo", command) (commands t) ->
  w_cargo w command = Ret (concat (map (fun n => note_line n ++ ["010"%char]) ns), code) -> Forall note_ok ns -> (forall n, In n ns -> w_utf8 w (note_line n) = true) ->
  (c = 0%Z <-> code = Some 0%Z /\ exists target file rlib ll p, In (lit "rustc", [lit "--print=cfg"; lit "--target"; target]) (commands t) /\
     one_artifact (w_args w) file /\ latest rlib_of ns (Some rlib) /\ latest ll_of ns (Some ll) /\ load w target file rlib ll = Ret p /\
     exists out, output demangle (w_orders w) (a_start (w_args w)) (a_format (w_args w)) p = Ret out /\ forall k, k < length out -> w_fault w k = None).
Proof.
  intros S M I E F U. destruct (c48_stderr (w_utf8 w) ns F U) as [rlib [ll [R [Lr Ll]]]].
  destruct (user_run demangle w t c (sane_user w S) M) as [[H _]|[file [config [_ [P [Ec H]]]]]]; [rewrite H in I; destruct I|].
  destruct H as [[H _]|[cfg [r0 [pre [exe [extra [G [Ht [Hc [H1 [Hp [He Hx]]]]]]]]]]]]; [rewrite H in I; destruct I as [I|[]]; discriminate I|].
  rewrite H1 in I. destruct I as [I|[I|[]]]; [discriminate I|]. injection I as <-. set (command := cargo_args (w_args w) file (no_std (buf_lines cfg))) in *.
  assert (Lu : forall x y (f : note -> option str), latest f ns x -> latest f ns y -> x = y) by (intros x y f; apply latest_unique).
  split.
  - intros C. destruct (build_prints demangle w (target_of w config) file exe command) as [[_ K]|[text [rl [l [p [echo [res [out [e [K1 [K2 [K3 [K4 [K5 [_ [K7 _]]]]]]]]]]]]]]]]; [congruence|].
    rewrite E in K1. injection K1 as <- ->. split; [reflexivity|]. rewrite R in K2. injection K2 as _ -> ->. rewrite K7 in Hc. destruct e as [m|]; [rewrite C in Hc; discriminate Hc|]. apply received_all in K5. destruct K5 as [_ K5].
    exists (target_of w config), file, rl, l, p. rewrite H1. split; [left; reflexivity|]. split; [exact P|]. split; [exact Lr|]. split; [exact Ll|]. split; [exact K3|]. exists res. split; [exact K4 | exact K5].
  - intros [-> [target [file' [rl [l [p [T [A [L1 [L2 [L [out [O Of]]]]]]]]]]]]]. rewrite H1 in T. destruct T as [T|[T|[]]]; [|discriminate T]. injection T as <-.
    assert (file' = file) by (apply artifact in A, P; congruence). subst file'.
    pose proof (Lu _ _ _ Lr L1). pose proof (Lu _ _ _ Ll L2). subst rlib ll.
    rewrite Hc. unfold build_and_analyse. rewrite ibind_say, E, ibind_ret. cbn [fst snd]. rewrite R, ibind_go. cbn [fst snd]. rewrite (analyse_goes demangle w (target_of w config) file rl l p out out L O (rc_all _ _ Of)). reflexivity.
Qed.
Theorem exits_well demangle w t c command ns code : sane w -> main demangle w = (t, c) -> In (lit "cargo", command) (commands t) ->
  w_cargo w command = Ret (concat (map (fun n => note_line n ++ ["010"%char]) ns), code) -> Forall note_ok ns -> (forall n, In n ns -> w_utf8 w (note_line n) = true) ->
  (forall target file rlib ll p, In (lit "rustc", [lit "--print=cfg"; lit "--target"; target]) (commands t) -> one_artifact (w_args w) file ->
     latest rlib_of ns (Some rlib) -> latest ll_of ns (Some ll) -> load w target file rlib ll = Ret p ->
     one_void p /\ (a_start (w_args w) = None \/ stable p)) ->
  (c = 0%Z <-> code = Some 0%Z /\ exists target file rlib ll p, In (lit "rustc", [lit "--print=cfg"; lit "--target"; target]) (commands t) /\
     one_artifact (w_args w) file /\ latest rlib_of ns (Some rlib) /\ latest ll_of ns (Some ll) /\ load w target file rlib ll = Ret p /\
     understood p /\ names_known demangle p (a_start (w_args w)) /\
     forall text k, output demangle (w_orders w) (a_start (w_args w)) (a_format (w_args w)) p = Ret text -> k < length text -> w_fault w k = None).
Proof.
  intros S M I E F U Um. rewrite (succeeds demangle w t c command ns code S M I E F U). split; intros [C [target [file [rlib [ll [p [T [A [L1 [L2 [L O]]]]]]]]]]]; split; try exact C;
    exists target, file, rlib, ll, p; (split; [exact T|]); (split; [exact A|]); (split; [exact L1|]); (split; [exact L2|]); (split; [exact L|]);
    destruct (Um target file rlib ll p T A L1 L2 L) as [Ov St]; destruct (loaded w target file rlib ll p S L) as [W _];
    pose proof (output_iff demangle (w_orders w) (a_start (w_args w)) (a_format (w_args w)) p W (sane_orders w S) Ov St) as Oi.
  - destruct O as [out [O Of]]. destruct (proj1 Oi (ex_intro _ out O)) as [O1 O2]. split; [exact O1|]. split; [exact O2|]. intros text k Ot. rewrite O in Ot. injection Ot as <-. apply Of.
  - destruct O as [O1 [O2 Of]]. destruct (proj2 Oi (conj O1 O2)) as [out O]. exists out. split; [exact O|]. intros k. exact (Of out k O).
Qed.
Theorem exits_well_start demangle w t c command ns : sane w -> main demangle w = (t, c) -> In (lit "cargo", command) (commands t) ->
  w_cargo w command = Ret (concat (map (fun n => note_line n ++ ["010"%char]) ns), Some 0%Z) -> Forall note_ok ns -> (forall n, In n ns -> w_utf8 w (note_line n) = true) ->
  forall target file rlib ll p, In (lit "rustc", [lit "--print=cfg"; lit "--target"; target]) (commands t) ->
  one_artifact (w_args w) file -> latest rlib_of ns (Some rlib) -> latest ll_of ns (Some ll) -> load w target file rlib ll = Ret p ->
  understood p -> names_known demangle p (a_start (w_args w)) ->
  (forall text k, output demangle (w_orders w) (a_start (w_args w)) (a_format (w_args w)) p = Ret text -> k < length text -> w_fault w k = None) -> c = 0%Z.
Proof.
  intros S M I E F U target file rlib ll p T A L1 L2 L Un Nk Nf. apply (succeeds demangle w t c command ns _ S M I E F U). split; [reflexivity|].
  exists target, file, rlib, ll, p. split; [exact T|]. split; [exact A|]. split; [exact L1|]. split; [exact L2|]. split; [exact L|]. destruct (loaded w target file rlib ll p S L) as [W _].
  destruct (output_enough demangle (w_orders w) (a_start (w_args w)) (a_format (w_args w)) p W (sane_orders w S) Un Nk) as [out O]. exists out. split; [exact O|]. intros k. exact (Nf out k O).
Qed.
