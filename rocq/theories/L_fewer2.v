(** The maxima that runs print with fewer stack sizes. *)
From Verif Require Import M_base M_stack M_graph M_analysis M_filter M_names M_thumb M_ty M_parse M_render M_build M_run M_log M_wrapper M_driver
  S_names S_graph S_filter S_render S_sig S_calls L_base L_ir2 L_driver3 L_driver4 L_driver5 L_filter2 S_build S_run S_driver S_below S_more S_prints S_fewer L_build1 L_render L_run L_report L_below L_below3 L_fewer.

Section Runs.
Variables (demangle : str -> str) (w w' : world) (t t' : list event) (c c' : Z).
Hypothesis (Sa : sane w) (Sa' : sane w') (M : main demangle w = (t, c)) (M' : main demangle w' = (t', c')) (C : c = 0%Z) (C' : c' = 0%Z).
Hypothesis (D : a_format (w_args w) = Dot) (D' : a_format (w_args w') = Dot).
Notation plain w p := (forall g cycles nd, report demangle (w_orders w) (a_start (w_args w)) p = Ret (g, cycles) -> In nd (gnodes g) -> no_backslash (demangle (nname nd))).

Theorem printed_fewer : exists target file rlib ll p out target' file' rlib' ll' q out', analyses w target file rlib ll p /\ printed t = [out] /\ analyses w' target' file' rlib' ll' q /\ printed t' = [out'] /\
  (plain w p -> plain w' q -> sizes_u64 p -> one_void p -> forall l, q = with_sizes p l -> fewer_sizes p l ->
   exists ks nds ks' nds', prints demangle p out ks nds /\ prints demangle q out' ks' nds' /\
   forall i k k' nd nd' m m', nth_error ks k = Some (KReal i) -> nth_error nds k = Some nd -> nmax nd = Some m -> nth_error ks' k' = Some (KReal i) -> nth_error nds' k' = Some nd' -> nmax nd' = Some m' ->
   (exact m' -> m = m') /\ (fits p -> (num m' <= num m)%N)).
Proof.
  destruct (two_runs demangle w w' t t' c c' Sa Sa' M M' C C' D D') as [target [file [rlib [ll [p [out [target' [file' [rlib' [ll' [q [out' [A [P [A' [P' [Wf [Wf' [g [cs [g' [cs' [R [R' [Rd Rd']]]]]]]]]]]]]]]]]]]]]]]]].
  exists target, file, rlib, ll, p, out, target', file', rlib', ll', q, out'. split; [exact A|]. split; [exact P|]. split; [exact A'|]. split; [exact P'|]. intros N N' Sz Ov l Q Fw. subst q.
  destruct (fewer_starts demangle _ _ _ _ p l g cs g' cs' Wf Wf' Fw (sane_orders w Sa) (sane_orders w' Sa') Sz Ov R R') as [ks [void [ks' [void' [Pi [Pi' H]]]]]].
  exists ks, (gnodes g), ks', (gnodes g'). split; [|split].
  - destruct (Rd N) as [st [S1 S2]]. exists st. split; [exact S1|]. split; [exact S2|]. split; [exact (proj2 (pi_keys _ _ _ _ _ _ _ Pi)) | exact (pi_show _ _ _ _ _ _ _ Pi)].
  - destruct (Rd' N') as [st [S1 S2]]. exists st. split; [exact S1|]. split; [exact S2|]. split; [exact (proj2 (pi_keys _ _ _ _ _ _ _ Pi')) | exact (pi_show _ _ _ _ _ _ _ Pi')].
  - intros i k k' nd nd' m m' K Nd Mx K' Nd' Mx'. apply (H i k k' m m' K K'); [exists nd | exists nd']; split; assumption.
Qed.
End Runs.
