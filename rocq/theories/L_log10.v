(** The log of any run. *)
From Coq Require Import Permutation Sorted.
From Verif Require Import M_base M_stack M_graph M_analysis M_filter M_names M_thumb M_ty M_parse M_build M_run M_log M_wrapper M_driver S_names S_graph S_sig S_build S_run S_log S_driver.
From Verif Require Import L_base L_names L_build1 L_build9 L_log L_log2 L_log8 L_log9 L_driver1 L_driver2 L_path L_write L_driver3 L_driver4 L_driver5.

Definition logs (demangle : str -> str) (w : world) (p : prog) : list message := fst (report_log demangle (w_orders w) (a_start (w_args w)) p).
Lemma understood_dec (demangle : str -> str) (w : world) p : wf_prog p -> understood p \/ ~ understood p.
Proof. intros W. destruct (outcome_dec (build demangle (w_orders w) p)) as [B|S]; [left; apply (build_iff demangle (w_orders w) p W); exact B | right; intros U; apply (build_iff demangle (w_orders w) p W) in U; destruct U as [b B]; exact (S b B)]. Qed.
(** After a program was loaded. *)
Lemma analyse_log demangle w target file r l p : load w target file r l = Ret p ->
  messages (fst (analyse demangle w target file (Some r, Some l))) = logs demangle w p /\
  (stops (report demangle (w_orders w) (a_start (w_args w)) p) -> printed (fst (analyse demangle w target file (Some r, Some l))) = [] /\ stops (snd (analyse demangle w target file (Some r, Some l)))).
Proof.
  intros L. unfold analyse. rewrite (loading_ret demangle _ _ _ _ _ _ L), ibind_iret, log_parts. fold (logs demangle w p). pose proof (output_says demangle w p) as O. destruct (report demangle (w_orders w) (a_start (w_args w)) p) as [[g cycles]| | |].
  2-4: unfold ibind; cbn [fst snd]; rewrite logs_messages, (proj1 (proj2 (logs_silent (logs demangle w p)))); (split; [reflexivity|]); intros _; (split; [reflexivity | intros z; discriminate]).
  destruct O as [text [O S]]. rewrite ibind_go. destruct (received_any (w_fault w) text) as [out [e R]]. rewrite (emit_says _ _ _ _ _ S R). split; [|intros St; destruct (St _ eq_refl)].
  destruct e; unfold ibind; cbn [fst snd iret]; rewrite messages_app, logs_messages; cbn; rewrite ?app_nil_r; reflexivity.
Qed.
Lemma told_log demangle w p : sane w -> wf_prog p -> (understood p -> notes demangle p (a_start (w_args w)) (logs demangle w p)) /\
  (~ understood p -> stopped p (logs demangle w p) /\ stops (report demangle (w_orders w) (a_start (w_args w)) p)).
Proof.
  intros S W. unfold logs. destruct (report_log demangle (w_orders w) (a_start (w_args w)) p) as [ms r] eqn:E. cbn [fst].
  destruct (report_told demangle (w_orders w) (a_start (w_args w)) p ms r W (sane_orders w S) E) as [A B]. split; [exact A|]. intros N. destruct (B N) as [B1 B2]. split; [exact B1|].
  rewrite <- report_erase, E. exact B2.
Qed.
(** Without a symbol table. *)
Lemma load_without w target file rlib ll p : load (without_symtab w) target file rlib ll = Ret p -> exists s, load_files w target file rlib ll = Ret (p, s).
Proof.
  assert (A : forall ms, archive_sizes (without_symtab w) ms = archive_sizes w ms) by (induction ms as [|m ms IH]; [reflexivity|]; cbn [archive_sizes]; rewrite IH; reflexivity).
  rewrite load_flat. unfold load_files. cbv zeta.
  change (w_path (without_symtab w)) with (w_path w). change (w_args (without_symtab w)) with (w_args w). change (w_host (without_symtab w)) with (w_host w). change (w_read (without_symtab w)) with (w_read w).
  change (w_dir (without_symtab w)) with (w_dir w). change (w_object (without_symtab w)) with (w_object w). change (w_archive (without_symtab w)) with (w_archive w). change (w_executable (without_symtab w)) with (w_executable w).
  change (w_text (without_symtab w)) with (w_text w). change (w_defines_order (without_symtab w)) with (w_defines_order w). change (w_symtab (without_symtab w)) with (fun _ : str => Ret (@nil (N * str))).
  change (read_to_string (without_symtab w)) with (read_to_string w).
  destruct (w_path w (match a_example (w_args w) with Some _ => true | None => false end) file (a_target (w_args w)) (w_host w)) as [path| | |] eqn:Ep; cbn [bind]; try discriminate.
  destruct (w_read w path) as [elf| | |] eqn:El; cbn [bind context]; try discriminate.
  match goal with |- bind ?x _ = _ -> _ => destruct x; cbn [bind]; try discriminate end.
  match goal with |- bind ?x _ = _ -> _ => destruct x as [[[n t]|]| | |]; cbn [bind]; try discriminate end.
  do 7 (match goal with |- bind ?x _ = _ -> _ => destruct x; cbn [bind]; try discriminate end). rewrite A.
  do 2 (match goal with |- bind ?x _ = _ -> _ => destruct x; cbn [bind]; try discriminate end).
  destruct (is_thumb (classify_target target)); cbn [bind]; intros E; injection E as <-; eexists; reflexivity.
Qed.
Lemma load_absent w target file rlib ll q s : load_files w target file rlib ll = Ret (q, s) -> load (without_symtab w) target file rlib ll = Ret q /\
  (stops s -> no_symtab w file /\ is_thumb (pg_target q) = true).
Proof.
  assert (A : forall ms, archive_sizes (without_symtab w) ms = archive_sizes w ms) by (induction ms as [|m ms IH]; [reflexivity|]; cbn [archive_sizes]; rewrite IH; reflexivity).
  rewrite load_flat. unfold load_files, no_symtab, executable. cbv zeta.
  change (w_path (without_symtab w)) with (w_path w). change (w_args (without_symtab w)) with (w_args w). change (w_host (without_symtab w)) with (w_host w). change (w_read (without_symtab w)) with (w_read w).
  change (w_dir (without_symtab w)) with (w_dir w). change (w_object (without_symtab w)) with (w_object w). change (w_archive (without_symtab w)) with (w_archive w). change (w_executable (without_symtab w)) with (w_executable w).
  change (w_text (without_symtab w)) with (w_text w). change (w_defines_order (without_symtab w)) with (w_defines_order w). change (w_symtab (without_symtab w)) with (fun _ : str => Ret (@nil (N * str))).
  change (read_to_string (without_symtab w)) with (read_to_string w).
  destruct (w_path w (match a_example (w_args w) with Some _ => true | None => false end) file (a_target (w_args w)) (w_host w)) as [path| | |] eqn:Ep; cbn [bind]; try discriminate.
  destruct (w_read w path) as [elf| | |] eqn:El; cbn [bind context]; try discriminate.
  match goal with |- bind ?x _ = _ -> _ => destruct x; cbn [bind]; try discriminate end.
  match goal with |- bind ?x _ = _ -> _ => destruct x as [[[n t]|]| | |]; cbn [bind]; try discriminate end.
  do 7 (match goal with |- bind ?x _ = _ -> _ => destruct x; cbn [bind]; try discriminate end). rewrite A.
  do 2 (match goal with |- bind ?x _ = _ -> _ => destruct x; cbn [bind]; try discriminate end).
  intros E. injection E as <- <-. split; [destruct (is_thumb (classify_target target)); reflexivity|]. cbn [pg_target].
  destruct (is_thumb (classify_target target)); intros S; [|destruct (S _ eq_refl)]. split; [|reflexivity]. exists path, elf. split; [reflexivity|]. split; [exact El | exact S].
Qed.
Lemma early_analysis demangle w target file r l q s : load_files w target file r l = Ret (q, s) -> stops s ->
  messages (fst (analyse demangle w target file (Some r, Some l))) = fst (early_log demangle q) /\ printed (fst (analyse demangle w target file (Some r, Some l))) = [] /\ stops (snd (analyse demangle w target file (Some r, Some l))).
Proof.
  intros L S. assert (K : fst (loading demangle w target file r l) = map ELog (fst (early_log demangle q)) /\ stops (snd (loading demangle w target file r l))).
  { unfold loading. rewrite L, ibind_ret. unfold read_symtab. destruct s as [s| | |]; [destruct (S _ eq_refl)|..];
    (unfold logged; destruct (snd (early_log demangle q)); unfold ibind, lift; cbn [fst snd bind]; rewrite ?app_nil_r; (split; [reflexivity | intros z; discriminate])). }
  destruct K as [K1 K2]. cbn [analyse]. destruct (loading demangle w target file r l) as [t o]. cbn [fst snd] in K1, K2.
  match goal with |- context [ibind (t, o) ?f] => destruct (ibind_stop t o f K2) as [J1 J2] end. split; [rewrite J1, K1; apply logs_messages|]. split; [rewrite J1, K1; exact (proj1 (proj2 (logs_silent _))) | exact J2].
Qed.
(** Before that nothing is logged. *)
Lemma build_messages demangle w target file exe command : let b := build_and_analyse demangle w target file exe command in
  messages (fst b) = [] \/ (exists text rlib ll p, w_cargo w command = Ret (text, Some 0%Z) /\ snd (read_stderr (w_utf8 w) (buf_lines text) None None) = Ret (Some rlib, Some ll) /\
    load w target file rlib ll = Ret p /\ messages (fst b) = logs demangle w p /\
    (stops (report demangle (w_orders w) (a_start (w_args w)) p) -> printed (fst b) = [] /\ stops (snd b))) \/
  exists rlib ll q s, load_files w target file rlib ll = Ret (q, s) /\ stops s /\ messages (fst b) = fst (early_log demangle q) /\ printed (fst b) = [] /\ stops (snd b).
Proof.
  cbv zeta. unfold build_and_analyse. rewrite ibind_say. cbn [fst snd]. set (c := ECmd _ _ _). assert (C : forall x, messages (c :: x) = messages x /\ printed (c :: x) = printed x) by (intros x; split; reflexivity).
  rewrite (proj1 (C _)), (proj2 (C _)). destruct (outcome_dec (w_cargo w command)) as [[[text code] Ec]|S].
  2:{ left. unfold lift. match goal with |- context [ibind ([], w_cargo w command) ?f] => destruct (ibind_stop [] _ f S) as [K _] end. rewrite K. reflexivity. }
  rewrite Ec, ibind_ret. cbn [fst snd]. destruct (read_stderr (w_utf8 w) (buf_lines text) None None) as [echo rp] eqn:Er.
  pose proof (read_messages (w_utf8 w) (buf_lines text) None None) as Qm. pose proof (proj2 (read_silent (w_utf8 w) (buf_lines text) None None)) as Qp. rewrite Er in Qm, Qp. cbn [fst] in Qm, Qp.
  destruct (outcome_dec rp) as [[[rlib ll] ->]|S]; [|left; match goal with |- context [ibind (echo, rp) ?f] => destruct (ibind_stop echo _ f S) as [K _] end; rewrite K; exact Qm].
  rewrite ibind_go. cbn [fst snd]. rewrite messages_app, printed_app, Qm. cbn [app].
  assert (Code : code = Some 0%Z \/ messages (fst (match code with Some 0%Z => analyse demangle w target file (rlib, ll) | Some z => iret z | None => iret 1%Z end)) = []) by (destruct code as [[| |]|]; [left; reflexivity | right; reflexivity..]).
  destruct Code as [-> | Code]; [|left; exact Code].
  destruct rlib as [r|]; [|left; reflexivity]. destruct ll as [l|]; [|left; reflexivity]. destruct (load_files w target file r l) as [[q s]| | |] eqn:Lf.
  2-4: left; cbn [analyse]; unfold loading; rewrite Lf; reflexivity.
  right. destruct (outcome_dec s) as [[st ->]|S].
  - left. assert (L : load w target file r l = Ret (with_tags q st)) by (unfold load; rewrite Lf; reflexivity).
    exists text, r, l, (with_tags q st). split; [reflexivity|]. split; [rewrite Er; reflexivity|]. split; [exact L|]. destruct (analyse_log demangle w target file r l _ L) as [A1 A2]. split; [exact A1|]. intros St. destruct (A2 St) as [A3 A4]. split; [|exact A4]. rewrite A3, Qp. reflexivity.
  - right. exists r, l, q, s. destruct (early_analysis demangle w target file r l q s Lf S) as [A1 [A2 A3]]. split; [exact Lf|]. split; [exact S|]. split; [exact A1|]. split; [rewrite A2, Qp; reflexivity | exact A3].
Qed.
Lemma without_sane w : sane w -> sane (without_symtab w).
Proof. intros [A B C D]. constructor; assumption. Qed.
Theorem any_log demangle w t c : sane w -> main demangle w = (t, c) ->
  messages t = [] \/ (exists target file rlib ll p, one_artifact (w_args w) file /\ analyses w target file rlib ll p /\ wf_prog p /\
    ((understood p /\ notes demangle p (a_start (w_args w)) (messages t)) \/ (~ understood p /\ stopped p (messages t) /\ printed t = [] /\ c <> 0%Z))) \/
  exists target file rlib ll p, one_artifact (w_args w) file /\ no_symtab w file /\ is_thumb (pg_target p) = true /\ analyses (without_symtab w) target file rlib ll p /\ wf_prog p /\
    told_early p (messages t) /\ printed t = [] /\ c <> 0%Z.
Proof.
  intros S M. destruct (user_run demangle w t c (sane_user w S) M) as [[_ [_ [[_ H] _]]]|[file [config [_ [P [Ec H]]]]]]; [left; exact H|].
  destruct H as [[_ [_ [[_ H] _]]]|[cfg [r0 [pre [exe [extra [[G _] [Ht [Hc [Hcm [Hp [[_ Hm] Hx]]]]]]]]]]]]; [left; exact H|].
  assert (Mx : messages extra = []) by (destruct Hx as [[-> _]|[_ [m [-> _]]]]; reflexivity).
  assert (Mt : messages t = messages (fst (build_and_analyse demangle w (target_of w config) file exe (cargo_args (w_args w) file (no_std (buf_lines cfg)))))) by (rewrite Ht, !messages_app, Hm, Mx, app_nil_r; reflexivity).
  destruct (build_messages demangle w (target_of w config) file exe (cargo_args (w_args w) file (no_std (buf_lines cfg)))) as [E|[[text [rlib [ll [p [_ [_ [L [E St]]]]]]]]|[rlib [ll [q [s [L [Ss [E [X1 X2]]]]]]]]]]; [left; congruence | right; left | right; right].
  - destruct (loaded w (target_of w config) file rlib ll p S L) as [Wp A]. exists (target_of w config), file, rlib, ll, p. split; [exact P|]. split; [exact A|]. split; [exact Wp|]. rewrite Mt, E.
    destruct (told_log demangle w p S Wp) as [T1 T2]. destruct (understood_dec demangle w p Wp) as [U|N]; [left; split; [exact U | exact (T1 U)] | right]. destruct (T2 N) as [T3 T4]. split; [exact N|]. split; [exact T3|].
    destruct (St T4) as [X1 X2]. split; [rewrite Hp; exact X1|]. rewrite Hc. apply stops_code. exact X2.
  - destruct (load_absent _ _ _ _ _ _ _ L) as [L' N]. destruct (N Ss) as [N1 N2]. destruct (loaded _ _ _ _ _ _ (without_sane w S) L') as [Wp A].
    exists (target_of w config), file, rlib, ll, q. split; [exact P|]. split; [exact N1|]. split; [exact N2|]. split; [exact A|]. split; [exact Wp|]. rewrite Mt, E.
    destruct (early_log demangle q) as [ms r] eqn:El. split; [exact (early_told demangle q ms r Wp El)|]. split; [rewrite Hp; exact X1|]. rewrite Hc. apply stops_code. exact X2.
Qed.
(** The run of a program that was loaded. *)
Theorem loaded_log demangle w t c command ns target file rlib ll p : sane w -> main demangle w = (t, c) -> In (lit "cargo", command) (commands t) ->
  w_cargo w command = Ret (concat (map (fun n => note_line n ++ ["010"%char]) ns), Some 0%Z) -> Forall note_ok ns -> (forall n, In n ns -> w_utf8 w (note_line n) = true) ->
  In (lit "rustc", [lit "--print=cfg"; lit "--target"; target]) (commands t) -> one_artifact (w_args w) file -> latest rlib_of ns (Some rlib) -> latest ll_of ns (Some ll) ->
  load w target file rlib ll = Ret p ->
  (understood p -> notes demangle p (a_start (w_args w)) (messages t)) /\ (~ understood p -> stopped p (messages t) /\ printed t = [] /\ c <> 0%Z).
Proof.
  intros S M I E F U T A L1 L2 L. destruct (c48_stderr (w_utf8 w) ns F U) as [rl [l [R [Lr Ll]]]].
  destruct (user_run demangle w t c (sane_user w S) M) as [[H _]|[file' [config [_ [P [Ec H]]]]]]; [rewrite H in I; destruct I|].
  destruct H as [[H _]|[cfg [r0 [pre [exe [extra [G [Ht [Hc [H1 [Hp [[_ Hm] Hx]]]]]]]]]]]]; [rewrite H in I; destruct I as [I|[]]; discriminate I|].
  rewrite H1 in I, T. destruct I as [I|[I|[]]]; [discriminate I|]. injection I as <-. destruct T as [T|[T|[]]]; [|discriminate T]. injection T as <-.
  assert (file' = file) by (apply artifact in A, P; congruence). subst file'. set (command := cargo_args (w_args w) file (no_std (buf_lines cfg))) in *.
  pose proof (latest_unique _ _ _ _ Lr L1). pose proof (latest_unique _ _ _ _ Ll L2). subst rl l.
  assert (Mx : messages extra = []) by (destruct Hx as [[-> _]|[_ [m [-> _]]]]; reflexivity).
  set (b := build_and_analyse demangle w (target_of w config) file exe command) in *.
  assert (B : b = (hd (EErr []) (fst b) :: map EErr (select text_of ns) ++ fst (analyse demangle w (target_of w config) file (Some rlib, Some ll)), snd (analyse demangle w (target_of w config) file (Some rlib, Some ll))) /\ messages [hd (EErr []) (fst b)] = [] /\ printed [hd (EErr []) (fst b)] = []).
  { split; [|split; reflexivity]. unfold b at 1, build_and_analyse. rewrite ibind_say, E, ibind_ret. cbn [fst snd]. rewrite R, ibind_go. reflexivity. }
  destruct B as [B [Be Bp]]. set (e := hd (EErr []) (fst b)) in *.
  assert (Q : forall ls, messages (map EErr ls) = [] /\ printed (map EErr ls) = []) by (intros ls; induction ls as [|x ls IH]; [split; reflexivity | exact IH]).
  destruct (analyse_log demangle w (target_of w config) file rlib ll p L) as [A1 A2].
  assert (Mt : messages t = logs demangle w p).
  { rewrite Ht, !messages_app, Hm, Mx, app_nil_r, B. cbn [fst app]. change (e :: ?x) with ([e] ++ x). rewrite !messages_app, Be, (proj1 (Q _)), A1. reflexivity. }
  destruct (loaded w (target_of w config) file rlib ll p S L) as [Wp _]. rewrite Mt. destruct (told_log demangle w p S Wp) as [T1 T2]. split; [exact T1|]. intros N. destruct (T2 N) as [T3 T4]. split; [exact T3|].
  destruct (A2 T4) as [X1 X2]. split.
  - rewrite Hp, B. cbn [fst]. change (e :: ?x) with ([e] ++ x). rewrite !printed_app, Bp, (proj2 (Q _)), X1. reflexivity.
  - rewrite Hc. apply stops_code. rewrite B. exact X2.
Qed.
(** The run of a program whose symbol table cannot be read. *)
Theorem unloaded_log demangle w t c command ns target file rlib ll p : sane w -> main demangle w = (t, c) -> In (lit "cargo", command) (commands t) ->
  w_cargo w command = Ret (concat (map (fun n => note_line n ++ ["010"%char]) ns), Some 0%Z) -> Forall note_ok ns -> (forall n, In n ns -> w_utf8 w (note_line n) = true) ->
  In (lit "rustc", [lit "--print=cfg"; lit "--target"; target]) (commands t) -> one_artifact (w_args w) file -> latest rlib_of ns (Some rlib) -> latest ll_of ns (Some ll) ->
  load (without_symtab w) target file rlib ll = Ret p -> is_thumb (pg_target p) = true -> no_symtab w file ->
  told_early p (messages t) /\ printed t = [] /\ c <> 0%Z.
Proof.
  intros S M I E F U T A L1 L2 L Th Ns. destruct (c48_stderr (w_utf8 w) ns F U) as [rl [l [R [Lr Ll]]]].
  destruct (user_run demangle w t c (sane_user w S) M) as [[H _]|[file' [config [_ [P [Ec H]]]]]]; [rewrite H in I; destruct I|].
  destruct H as [[H _]|[cfg [r0 [pre [exe [extra [G [Ht [Hc [H1 [Hp [[_ Hm] Hx]]]]]]]]]]]]; [rewrite H in I; destruct I as [I|[]]; discriminate I|].
  rewrite H1 in I, T. destruct I as [I|[I|[]]]; [discriminate I|]. injection I as <-. destruct T as [T|[T|[]]]; [|discriminate T]. injection T as <-.
  assert (file' = file) by (apply artifact in A, P; congruence). subst file'. set (command := cargo_args (w_args w) file (no_std (buf_lines cfg))) in *.
  pose proof (latest_unique _ _ _ _ Lr L1). pose proof (latest_unique _ _ _ _ Ll L2). subst rl l.
  assert (Mx : messages extra = []) by (destruct Hx as [[-> _]|[_ [m [-> _]]]]; reflexivity).
  set (b := build_and_analyse demangle w (target_of w config) file exe command) in *.
  assert (B : b = (hd (EErr []) (fst b) :: map EErr (select text_of ns) ++ fst (analyse demangle w (target_of w config) file (Some rlib, Some ll)), snd (analyse demangle w (target_of w config) file (Some rlib, Some ll))) /\ messages [hd (EErr []) (fst b)] = [] /\ printed [hd (EErr []) (fst b)] = []).
  { split; [|split; reflexivity]. unfold b at 1, build_and_analyse. rewrite ibind_say, E, ibind_ret. cbn [fst snd]. rewrite R, ibind_go. reflexivity. }
  destruct B as [B [Be Bp]]. set (e := hd (EErr []) (fst b)) in *.
  assert (Q : forall ls, messages (map EErr ls) = [] /\ printed (map EErr ls) = []) by (intros ls; induction ls as [|x ls IH]; [split; reflexivity | exact IH]).
  destruct (load_without _ _ _ _ _ _ L) as [s Ls].
  assert (Ss : stops s).
  { destruct (outcome_dec s) as [[st ->]|Ss]; [|exact Ss]. exfalso. destruct Ns as [path [elf [N1 [N2 N3]]]]. assert (K : load w (target_of w config) file rlib ll = Ret (with_tags p st)) by (unfold load; rewrite Ls; reflexivity).
    destruct (loaded w _ _ _ _ _ S K) as [_ An]. destruct An as [path' exe_dir dir ll_path obj_path es name t0 text items btext bitems obj sizes ms more elf' el P' _ _ _ _ _ _ _ _ _ _ _ _ _ _ _ _ _ _ R' _ _ _ _ X].
    unfold executable in N1, P'. rewrite N1 in P'. injection P' as <-. rewrite N2 in R'. injection R' as <-. destruct (X Th) as [_ [[st' [St _]] _]]. exact (N3 _ St). }
  destruct (early_analysis demangle w (target_of w config) file rlib ll p s Ls Ss) as [A1 [A2 A3]].
  assert (Mt : messages t = fst (M_log.early_log demangle p)).
  { rewrite Ht, !messages_app, Hm, Mx, app_nil_r, B. cbn [fst app]. change (e :: ?x) with ([e] ++ x). rewrite !messages_app, Be, (proj1 (Q _)), A1. reflexivity. }
  destruct (loaded _ (target_of w config) file rlib ll p (without_sane w S) L) as [Wp _]. rewrite Mt. destruct (M_log.early_log demangle p) as [ms r] eqn:El. split; [exact (early_told demangle p ms r Wp El)|]. split.
  - rewrite Hp, B. cbn [fst]. change (e :: ?x) with ([e] ++ x). rewrite !printed_app, Bp, (proj2 (Q _)), A2. reflexivity.
  - rewrite Hc. apply stops_code. rewrite B. exact A3.
Qed.
