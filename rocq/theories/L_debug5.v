(** Debug and release builds: programs that were loaded, and programs that differ. *)
From Coq Require Import Sorted.
From Verif Require Import M_base M_stack M_graph M_analysis M_filter M_names M_thumb M_ty M_parse M_render M_build M_run M_wrapper M_driver M_debug L_driver3 L_filter2 S_graph S_filter S_build S_run S_debug S_driver
  L_base L_build1 L_build3 L_build4 L_build5 L_build6 L_build7 L_build8 L_run L_run2 L_driver4 X_build X_machine L_debug1 L_debug2 L_debug3 L_debug4.

(** * Tags that were loaded *)
Lemma collect_tags_proper symtab : proper_tags (collect_tags symtab).
Proof.
  constructor; [destruct (collect_tags_ok symtab) as [ts [_ [S _]]]; exact S|]. intros a x I. apply (in_map fst) in I. cbn [fst] in I.
  assert (K : forall ts acc a, In a (map fst (fold_left (fun l t => insert_tag t l) ts acc)) -> In a (map fst ts) \/ In a (map fst acc)).
  { clear. induction ts as [|t ts IH]; intros acc a I; cbn [fold_left] in I; [now right|]. destruct (IH _ _ I) as [J|J]; [left; now right|].
    apply insert_tag_in in J. destruct J as [->|J]; [left; now left | now right]. }
  destruct (K _ _ _ I) as [J|[]]. clear - J. revert J. induction symtab as [|s l IH]; cbn [map somes]; [intros []|].
  destruct (tag_of s) as [t|] eqn:E; [|exact IH]. cbn [map]. intros [<-|J]; [|exact (IH J)]. unfold tag_of in E.
  assert (M : (fst s mod 2 ^ 32 < 2 ^ 32)%N) by (apply N.mod_lt; vm_compute; discriminate).
  destruct (starts_with (lit "$d") (snd s)); [injection E as <-; exact M|]. destruct (starts_with (lit "$t") (snd s)); [injection E as <-; exact M | discriminate E].
Qed.
Lemma load_tags w target file rlib ll p : load w target file rlib ll = Ret p -> proper_tags (pg_tags p).
Proof.
  rewrite load_flat. cbv zeta. intros H. do 3 (apply bind_inv in H; destruct H as [? [_ H]]). apply bind_inv in H. destruct H as [best [_ H]]. destruct best as [[n m]|]; [|discriminate H].
  do 9 (apply bind_inv in H; destruct H as [? [_ H]]). apply bind_inv in H. destruct H as [symtab [_ H]]. injection H as <-. apply collect_tags_proper.
Qed.

(** * Code on both sides of the middle of the address space *)
Definition hi : N := 2147483644.
Definition high_p : prog := mkProg Thumbv7m [] [] []
  [(hi, mkSym [lit "f"] 4); (hi + 4, mkSym [lit "g"] 2)]%N [] [(hi, TThumb)]
  (Some (hi, map ascii_of_N [0; 224; 0; 191; 112; 71]%N)).
Lemma high_wf : wf_prog high_p. Proof. apply wf_progb_sound. vm_compute. reflexivity. Qed.
Lemma high_tags : proper_tags (pg_tags high_p).
Proof. constructor; [repeat constructor|]. intros a x [E|[]]. injection E as <- <-. reflexivity. Qed.
Lemma high_release : exists g cs, report idd o_id None high_p = Ret (g, cs) /\ gedges g = [(0, 1)].
Proof. eexists. eexists. split; [vm_compute; reflexivity | reflexivity]. Qed.
Lemma high_fits : fits high_p.
Proof.
  assert (X : exists b, build idd o_id high_p = Ret b /\ map nlocal (gnodes (b_g b)) = [LExact 0; LExact 0]) by (eexists; split; [vm_compute; reflexivity | reflexivity]).
  destruct X as [b [E L]]. exists (fun _ => 0%N). split; [|vm_compute; reflexivity]. intros i k U.
  assert (Li : i < 2).
  { assert (H : forall s, llvm_size high_p i s -> i < 2) by (intros s [n [C _]]; exact (live_lt high_p _ _ (chosen_live high_p _ _ C))). inversion U; eapply H; eassumption. }
  destruct (c42_nodes idd o_id high_p b high_wf o_id_fair E) as [N _]. destruct (N i Li) as [n [l [N1 [_ [N2 _]]]]]. pose proof (usage_fun _ _ _ _ high_wf U N2) as <-.
  apply (map_nth_error nlocal) in N1. rewrite L in N1. cbn [nlocal] in N1. destruct i as [|[|i]]; [injection N1 as <-; reflexivity.. | lia].
Qed.
Lemma high_debug : report_d idd o_id None high_p = Panic "attempt to add with overflow".
Proof. vm_compute. reflexivity. Qed.

(** * Usages that do not fit *)
Definition big_p : prog := mkProg OtherTarget
  [fdef "main" (fsig [] None) [DirectCall (lit "leaf")]; fdef "leaf" (fsig [] None) []]
  [] [(lit "main", 9223372036854775808%N); (lit "leaf", 9223372036854775808%N)]
  [at_ 4096 ["main"]; at_ 4112 ["leaf"]]%string [] [] None.
Lemma big_wf : wf_prog big_p. Proof. apply wf_progb_sound. vm_compute. reflexivity. Qed.
Lemma big_release : exists g cs nd, report idd o_id None big_p = Ret (g, cs) /\ nth_error (gnodes g) 0 = Some nd /\ nmax nd = Some (MExact 0).
Proof. eexists. eexists. eexists. split; [vm_compute; reflexivity|]. split; reflexivity. Qed.
Lemma big_debug : report_d idd o_id None big_p = Panic "attempt to add with overflow".
Proof. vm_compute. reflexivity. Qed.

(** * A program that both build alike *)
Lemma m_tags : proper_tags (pg_tags m_p).
Proof. constructor; [repeat constructor|]. intros a x [E|[]]. injection E as <- <-. reflexivity. Qed.
Lemma m_low : low_text m_p.
Proof. intros stext text E. injection E as <- <-. apply N.leb_le. vm_compute. reflexivity. Qed.
Lemma m_debug : exists g cs nd, report_d idd o_id None m_p = Ret (g, cs) /\ nth_error (gnodes g) 0 = Some nd /\ nmax nd = Some (MExact 16).
Proof. eexists. eexists. eexists. split; [vm_compute; reflexivity|]. split; reflexivity. Qed.

Lemma so_loaded demangle w target file rlib ll p : sane w -> load w target file rlib ll = Ret p -> forall start f,
  same_or_overflow (output_d demangle (w_orders w) start f p) (output demangle (w_orders w) start f p).
Proof. intros S E start f. apply so_output; [exact (proj1 (loaded w target file rlib ll p S E)) | exact (sane_orders w S) | exact (load_tags _ _ _ _ _ _ E)]. Qed.
Lemma high_differs : wf_prog high_p /\ fair o_id /\ proper_tags (pg_tags high_p) /\ fits high_p /\
  (exists g cs, report idd o_id None high_p = Ret (g, cs) /\ gedges g = [(0, 1)]) /\ report_d idd o_id None high_p = Panic "attempt to add with overflow".
Proof. split; [exact high_wf|]. split; [exact o_id_fair|]. split; [exact high_tags|]. split; [exact high_fits|]. split; [exact high_release | exact high_debug]. Qed.
Lemma big_differs : wf_prog big_p /\ fair o_id /\ proper_tags (pg_tags big_p) /\ low_text big_p /\
  (exists g cs nd, report idd o_id None big_p = Ret (g, cs) /\ nth_error (gnodes g) 0 = Some nd /\ nmax nd = Some (MExact 0)) /\
  report_d idd o_id None big_p = Panic "attempt to add with overflow".
Proof.
  split; [exact big_wf|]. split; [exact o_id_fair|]. split; [constructor; [constructor | intros ? ? []]|]. split; [intros ? ? E; discriminate E|]. split; [exact big_release | exact big_debug].
Qed.
