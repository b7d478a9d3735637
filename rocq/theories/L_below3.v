(** The maxima that runs print for parts of programs that agree. *)
From Verif Require Import M_base M_stack M_graph M_analysis M_filter M_names M_thumb M_ty M_parse M_render M_build M_run M_log M_wrapper M_driver
  S_names S_graph S_filter S_render S_sig S_calls L_base L_ir2 L_driver3 L_driver4 L_driver5 L_filter2 S_build S_run S_driver S_below S_more S_prints L_build1 L_render L_run L_report L_below L_more.

Section Runs.
Variables (demangle : str -> str) (w w' : world) (t t' : list event) (c c' : Z).
Hypothesis (Sa : sane w) (Sa' : sane w') (M : main demangle w = (t, c)) (M' : main demangle w' = (t', c')) (C : c = 0%Z) (C' : c' = 0%Z).
Hypothesis (D : a_format (w_args w) = Dot) (D' : a_format (w_args w') = Dot).
Notation plain w p := (forall g cycles nd, report demangle (w_orders w) (a_start (w_args w)) p = Ret (g, cycles) -> In nd (gnodes g) -> no_backslash (demangle (nname nd))).

Lemma two_runs : exists target file rlib ll p out target' file' rlib' ll' q out', analyses w target file rlib ll p /\ printed t = [out] /\ analyses w' target' file' rlib' ll' q /\ printed t' = [out'] /\
  wf_prog p /\ wf_prog q /\ exists g cs g' cs', report demangle (w_orders w) (a_start (w_args w)) p = Ret (g, cs) /\ report demangle (w_orders w') (a_start (w_args w')) q = Ret (g', cs') /\
  (plain w p -> exists st, read_dot out = Some st /\ file_nodes st = drawn demangle (gnodes g)) /\ (plain w' q -> exists st, read_dot out' = Some st /\ file_nodes st = drawn demangle (gnodes g')).
Proof.
  destruct (printed_of demangle w t c Sa M C) as [file [config [cfg [text [rlib [ll [p [echo [out [Ar [_ [_ [_ [_ [_ [Wf [A [O P]]]]]]]]]]]]]]]]]].
  destruct (printed_of demangle w' t' c' Sa' M' C') as [file' [config' [cfg' [text' [rlib' [ll' [q [echo' [out' [Ar' [_ [_ [_ [_ [_ [Wf' [A' [O' P']]]]]]]]]]]]]]]]]].
  exists (target_of w config), file, rlib, ll, p, out, (target_of w' config'), file', rlib', ll', q, out'. split; [exact A|]. split; [exact P|]. split; [exact A'|]. split; [exact P'|]. split; [exact Wf|]. split; [exact Wf'|].
  unfold output in O, O'. apply bind_Ret in O, O'. destruct O as [[g cs] [O1 O2]], O' as [[g' cs'] [O1' O2']]. rewrite D in O2. rewrite D' in O2'. injection O2 as <-. injection O2' as <-.
  exists g, cs, g', cs'. split; [exact O1|]. split; [exact O1'|]. split; intros Nb.
  - destruct (dot_read_back demangle g cs (fun nd => Nb g cs nd O1)) as [st [R1 [R2 _]]]. exists st. split; [exact R1 | exact R2].
  - destruct (dot_read_back demangle g' cs' (fun nd => Nb g' cs' nd O1')) as [st [R1 [R2 _]]]. exists st. split; [exact R1 | exact R2].
Qed.

Theorem printed_below : exists target file rlib ll p out target' file' rlib' ll' q out', analyses w target file rlib ll p /\ printed t = [out] /\ analyses w' target' file' rlib' ll' q /\ printed t' = [out'] /\
  (plain w p -> plain w' q -> sizes_u64 p -> sizes_u64 q -> one_void p ->
   exists ks nds ks' nds', prints demangle p out ks nds /\ prints demangle q out' ks' nds' /\
   forall f i k k' nd nd' m m', settled p (reaches p i) -> settled q (fun y => exists j, reaches p i j /\ y = f j) -> same_below p q f (reaches p i) ->
   nth_error ks k = Some (KReal i) -> nth_error nds k = Some nd -> nmax nd = Some m -> nth_error ks' k' = Some (KReal (f i)) -> nth_error nds' k' = Some nd' -> nmax nd' = Some m' -> m = m').
Proof.
  destruct two_runs as [target [file [rlib [ll [p [out [target' [file' [rlib' [ll' [q [out' [A [P [A' [P' [Wf [Wf' [g [cs [g' [cs' [R [R' [Rd Rd']]]]]]]]]]]]]]]]]]]]]]]]].
  exists target, file, rlib, ll, p, out, target', file', rlib', ll', q, out'. split; [exact A|]. split; [exact P|]. split; [exact A'|]. split; [exact P'|]. intros N N' Sz Sz' Ov.
  destruct (below_starts demangle _ _ _ _ p q g cs g' cs' Wf Wf' (sane_orders w Sa) (sane_orders w' Sa') Sz Sz' Ov R R') as [ks [void [ks' [void' [Pi [Pi' H]]]]]].
  exists ks, (gnodes g), ks', (gnodes g'). split; [|split].
  - destruct (Rd N) as [st [S1 S2]]. exists st. split; [exact S1|]. split; [exact S2|]. split; [exact (proj2 (pi_keys _ _ _ _ _ _ _ Pi)) | exact (pi_show _ _ _ _ _ _ _ Pi)].
  - destruct (Rd' N') as [st [S1 S2]]. exists st. split; [exact S1|]. split; [exact S2|]. split; [exact (proj2 (pi_keys _ _ _ _ _ _ _ Pi')) | exact (pi_show _ _ _ _ _ _ _ Pi')].
  - intros f i k k' nd nd' m m' St St' Sb K Nd Mx K' Nd' Mx'. apply (H f i k k' m m' St St' Sb K K'); [exists nd | exists nd']; split; assumption.
Qed.
Theorem printed_more : exists target file rlib ll p out target' file' rlib' ll' q out', analyses w target file rlib ll p /\ printed t = [out] /\ analyses w' target' file' rlib' ll' q /\ printed t' = [out'] /\
  (plain w p -> plain w' q -> sizes_u64 p -> sizes_u64 q -> one_void p -> fits q ->
   exists ks nds ks' nds', prints demangle p out ks nds /\ prints demangle q out' ks' nds' /\
   forall f i k k' nd nd' m m', settled p (reaches p i) -> at_most p q f (reaches p i) ->
   nth_error ks k = Some (KReal i) -> nth_error nds k = Some nd -> nmax nd = Some m -> nth_error ks' k' = Some (KReal (f i)) -> nth_error nds' k' = Some nd' -> nmax nd' = Some m' ->
   exact m' -> (num m <= num m')%N /\ exact m).
Proof.
  destruct two_runs as [target [file [rlib [ll [p [out [target' [file' [rlib' [ll' [q [out' [A [P [A' [P' [Wf [Wf' [g [cs [g' [cs' [R [R' [Rd Rd']]]]]]]]]]]]]]]]]]]]]]]]].
  exists target, file, rlib, ll, p, out, target', file', rlib', ll', q, out'. split; [exact A|]. split; [exact P|]. split; [exact A'|]. split; [exact P'|]. intros N N' Sz Sz' Ov Ft.
  destruct (more_starts demangle _ _ _ _ p q g cs g' cs' Wf Wf' (sane_orders w Sa) (sane_orders w' Sa') Sz Sz' Ov Ft R R') as [ks [void [ks' [void' [Pi [Pi' H]]]]]].
  exists ks, (gnodes g), ks', (gnodes g'). split; [|split].
  - destruct (Rd N) as [st [S1 S2]]. exists st. split; [exact S1|]. split; [exact S2|]. split; [exact (proj2 (pi_keys _ _ _ _ _ _ _ Pi)) | exact (pi_show _ _ _ _ _ _ _ Pi)].
  - destruct (Rd' N') as [st [S1 S2]]. exists st. split; [exact S1|]. split; [exact S2|]. split; [exact (proj2 (pi_keys _ _ _ _ _ _ _ Pi')) | exact (pi_show _ _ _ _ _ _ _ Pi')].
  - intros f i k k' nd nd' m m' St Am K Nd Mx K' Nd' Mx' Ex. apply (H f i k k' m m' St Am K K'); [exists nd | exists nd' | exact Ex]; (split; assumption).
Qed.
End Runs.
