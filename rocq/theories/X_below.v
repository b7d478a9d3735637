(** Examples for C101. *)
From Verif Require Import M_base M_stack M_graph M_analysis M_filter M_names M_thumb M_ty M_parse M_render M_build M_run
  S_names S_sig L_base L_ir2 L_driver3 L_filter2 S_graph S_build S_run S_below L_build1 L_build3 L_build8 L_below L_below2 X_build.
Local Open Scope string_scope.
Local Open Scope list_scope.

(** ** The statements of a function *)
Definition liveb (p : prog) (n : str) (i : nat) : bool := match nth_error (pg_defined p) i with Some x => smem n (real_names x) | None => false end.
Definition bodies (p : prog) (i : nat) : list stmt := flat_map (fun x => if liveb p (fst x) i then d_stmts (snd x) else []) (pg_defines p).
Lemma liveb_ok p n i : liveb p n i = true <-> live p n i.
Proof. rewrite live_find. unfold liveb. destruct (nth_error (pg_defined p) i); [reflexivity | split; [discriminate | intros []]]. Qed.
Lemma bodies_ok p i st : body p i st <-> In st (bodies p i).
Proof.
  unfold bodies. rewrite in_flat_map. split.
  - intros [n [d [I [L S]]]]. exists (n, d). split; [exact I|]. cbn [fst snd]. rewrite (proj2 (liveb_ok p n i) L). exact S.
  - intros [[n d] [I S]]. cbn [fst snd] in S. destruct (liveb p n i) eqn:E; [|destruct S]. exists n, d. split; [exact I|]. split; [apply liveb_ok; exact E | exact S].
Qed.
Ltac each H := repeat (destruct H as [H|H]); try contradiction.
Ltac stmts B := apply bodies_ok in B; vm_compute in B; each B.

(** ** `main` calls `foo`, also through a pointer; `other` calls `main` *)
Definition low (others : list stmt) (k : N) : prog := mkProg OtherTarget
  [fdef "main" (fsig [] None) [DirectCall (lit "foo"); IndirectCall bin]; fdef "foo" bin []; fdef "other" (fsig [] None) others] []
  [(lit "main", 8%N); (lit "foo", 16%N); (lit "other", k)] [X_build.at_ 4096 ["main"]; X_build.at_ 4112 ["foo"]; X_build.at_ 4128 ["other"]] [lit "gone"] [] None.
Definition p_low : prog := low [DirectCall (lit "main")] 100.
(** `other` is written anew: it calls itself, a function outside, and pointers. *)
Definition q_low : prog := low [DirectCall (lit "other"); IndirectCall bin; DirectCall (lit "gone"); BitcastCall (Some (lit "foo"))] 4.
Lemma low_typed others k j s : typed (low others k) j s -> (j = 1 /\ s = bin) \/ ((j = 0 \/ j = 2) /\ s = fsig [] None).
Proof.
  intros [[ns [n [d [[x [N ->]] [F [I E]]]]]]|[ns [n [_ [_ [_ []]]]]]]. assert (In_ : In n (real_names x)) by (destruct F as [a [b [-> _]]]; apply in_or_app; right; left; reflexivity).
  destruct j as [|[|[|j]]]; cbn in N; [injection N as <-..|destruct j; discriminate N]; vm_compute in In_; each In_; subst n; cbn in I; each I; injection I; intros; subst; try discriminate; cbn; auto.
Qed.
Lemma low_untyped others k : ~ untyped (low others k).
Proof.
  intros [j [ns [n [[x [N ->]] [C [D _]]]]]]. destruct j as [|[|[|j]]]; cbn in N; [injection N as <-..|destruct j; discriminate N].
  - apply (proj1 (D (lit "main") (or_introl eq_refl))). eexists. left. reflexivity.
  - apply (proj1 (D (lit "foo") (or_introl eq_refl))). eexists. right. left. reflexivity.
  - apply (proj1 (D (lit "other") (or_introl eq_refl))). eexists. right. right. left. reflexivity.
Qed.
Lemma low_void others k v : ~ true_void (low others k) v.
Proof. intros [[j T] _]. destruct (low_typed _ _ _ _ T) as [[_ E]|[_ E]]; discriminate E. Qed.
Lemma low_no_code others k j addr size a : ~ analysed (low others k) j addr size a.
Proof. intros [T _]. discriminate T. Qed.
Lemma low_bodies others k j st : j < 2 -> body (low others k) j st -> (st = DirectCall (lit "foo") \/ st = IndirectCall bin).
Proof. intros L B. destruct j as [|[|j]]; [| |lia]; stmts B; subst; auto. Qed.
Lemma low_keys others k void key : leads (low others k) void (KReal 0) key -> (exists j, key = KReal j /\ j < 2) \/ exists s, key = KSig s /\ s = bin.
Proof.
  intros L. remember (KReal 0) as k0 eqn:E0. induction L as [k1|k1 m l L IH E]; subst; [left; exists 0; split; [reflexivity | lia]|]. specialize (IH eq_refl).
  assert (Lv : forall n y, live (low others k) n y -> n = lit "foo" \/ n = lit "main" -> y < 2).
  { intros n y Hl D. apply liveb_ok in Hl. destruct D as [-> | ->]; destruct y as [|[|[|y]]]; try lia; unfold liveb in Hl; cbn in Hl; try discriminate Hl; destruct y; discriminate Hl. }
  destruct IH as [[j [-> Lj]]|[s [-> ->]]].
  - inversion E as [x n y B Ni Lf Mc|x n B Ni Lf Mc|x n y B C|x n B C|x n m0 y T B Lo C|x n m0 T B Lo C Kn|x y J|x Bl|x s Cs|s y Cd P|s Cd U]; subst.
    + destruct (low_bodies _ _ _ _ Lj B) as [X|X]; [injection X as -> | discriminate X]; left; exists y; split; try reflexivity; eapply Lv; eauto.
    + exfalso. destruct (low_bodies _ _ _ _ Lj B) as [X|X]; [injection X as -> | discriminate X]. apply (Lf 1). live_tac.
    + destruct (low_bodies _ _ _ _ Lj B) as [X|X]; discriminate X.
    + destruct (low_bodies _ _ _ _ Lj B) as [X|X]; discriminate X.
    + exfalso. destruct (low_bodies _ _ _ _ Lj B) as [X|X]; [injection X as -> | discriminate X]; inversion Lo; discriminate.
    + destruct Kn.
    + exfalso. destruct J as [? [? [? [A _]]]]. exact (low_no_code _ _ _ _ _ _ A).
    + exfalso. destruct Bl as [[? [? [? [A _]]]] _]. exact (low_no_code _ _ _ _ _ _ A).
    + right. exists s. split; [reflexivity|]. destruct Cs as [[y T] [s' [B M]]]. destruct (low_bodies _ _ _ _ Lj B) as [X|X]; [discriminate X | injection X as ->].
      destruct (low_typed _ _ _ _ T) as [[_ ->]|[_ ->]]; [reflexivity|]. exfalso. destruct M as [M _]. inversion M.
  - inversion E as [x n y B Ni Lf Mc|x n B Ni Lf Mc|x n y B C|x n B C|x n m0 y T B Lo C|x n m0 T B Lo C Kn|x y J|x Bl|x s Cs|s y Cd P|s Cd U]; subst.
    + left. exists y. split; [reflexivity|]. destruct P as [[v [_ [X _]]]|[_ T]]; [discriminate X|]. destruct (low_typed _ _ _ _ T) as [[-> _]|[_ X]]; [lia | discriminate X].
    + destruct (low_untyped _ _ U).
Qed.
Lemma low_reaches others k j : reaches (low others k) 0 j -> j < 2.
Proof. intros [void [_ L]]. destruct (low_keys _ _ _ _ L) as [[j' [E Lj]]|[s [E _]]]; [injection E as ->; exact Lj | discriminate E]. Qed.
Lemma low_settled others k (R : nat -> Prop) : (forall j, R j -> j < 2) -> settled (low others k) R.
Proof.
  intros H j n Rj B. destruct (low_bodies _ _ _ _ (H j Rj) B) as [X|X]; [injection X as -> | discriminate X]; (split; [discriminate | intros m Lo; inversion Lo; discriminate]).
Qed.
Lemma low_sizes others k : (k < 2 ^ 64)%N -> sizes_u64 (low others k).
Proof. intros Hk n c I. cbn in I. each I; injection I as <- <-; [reflexivity | reflexivity | exact Hk]. Qed.
Lemma low_one others k : one_void (low others k).
Proof. intros v w V. destruct (low_void _ _ _ V). Qed.
Lemma low_rewritten others k others' k' (R : nat -> Prop) : (forall j, R j -> j < 2) -> rewritten (low others k) (low others' k') R.
Proof.
  intros H. constructor; try reflexivity.
  - assert (X : forall o k o' k' n s, (exists d, In (n, d) (pg_defines (low o k)) /\ d_sig d = s) -> exists d, In (n, d) (pg_defines (low o' k')) /\ d_sig d = s).
    { intros o c o' c' n s [d [I <-]]. cbn in I. each I; injection I as <- <-; eexists; (split; [cbn; (left; reflexivity) + (right; left; reflexivity) + (right; right; left; reflexivity) | reflexivity]). }
    intros n s. split; apply X.
  - intros n. split; intros [c I]; cbn in I; each I; injection I as <- <-; eexists; cbn; eauto.
  - intros j n c Rj L. specialize (H j Rj). apply liveb_ok in L. assert (D : n <> lit "other") by (intros ->; destruct j as [|[|j]]; [discriminate L | discriminate L | lia]).
    split; intros I; cbn in I; each I; injection I as <- <-; cbn; auto; destruct (D eq_refl).
  - intros j st Rj. specialize (H j Rj). rewrite !bodies_ok. destruct j as [|[|j]]; [reflexivity | reflexivity | lia].
Qed.
Lemma low_example : wf_prog p_low /\ wf_prog q_low /\ sizes_u64 p_low /\ sizes_u64 q_low /\ one_void p_low /\ settled p_low (reaches p_low 0) /\ settled q_low (reaches p_low 0) /\
  rewritten p_low q_low (reaches p_low 0) /\
  (exists g cs, report idd o_id None p_low = Ret (g, cs) /\ reported g 0 (MExact 24) /\ reported g 2 (MExact 124)) /\
  exists g cs, report idd o_rev None q_low = Ret (g, cs) /\ reported g 0 (MExact 24) /\ reported g 2 (MLower 20).
Proof.
  split; [apply wf_progb_sound; vm_compute; reflexivity|]. split; [apply wf_progb_sound; vm_compute; reflexivity|]. split; [apply low_sizes; reflexivity|]. split; [apply low_sizes; reflexivity|]. split; [apply low_one|].
  split; [apply low_settled, low_reaches|]. split; [apply low_settled, low_reaches|]. split; [apply low_rewritten, low_reaches|].
  split; eexists; eexists; (split; [vm_compute; reflexivity|]); split; eexists; split; reflexivity.
Qed.

(** ** A function `boot` at a lower address than the others, which calls `main` *)
Definition d_boot : define := {| d_name := lit "boot"; d_sig := fsig [] None; d_stmts := [DirectCall (lit "main"); BitcastCall (Some (lit "gone"))] |}.
Definition r_low : prog := mkProg OtherTarget ((lit "boot", d_boot) :: pg_defines p_low) [] ((lit "boot", 1000%N) :: pg_sizes p_low) (X_build.at_ 4080 ["boot"] :: pg_defined p_low) [lit "gone"] [] None.
Lemma r_added : added p_low r_low (reaches p_low 0) [] (X_build.at_ 4080 ["boot"]) (pg_defined p_low) d_boot 1000.
Proof.
  constructor; try reflexivity.
  - intros n e. cbn [pg_defines r_low In]. split; [intros [E|I]; [left; injection E as <- <-; split; reflexivity | right; exact I] | intros [[-> ->]|I]; [left; reflexivity | right; exact I]].
  - intros n c. cbn [pg_sizes r_low In]. split; [intros [E|I]; [left; injection E as <- <-; split; reflexivity | right; exact I] | intros [[-> ->]|I]; [left; reflexivity | right; exact I]].
  - intros j L. apply liveb_ok in L. destruct j as [|[|[|j]]]; [discriminate L..|]. unfold liveb in L. cbn in L. destruct j; discriminate L.
  - intros j st Rj B U. destruct (low_bodies _ _ _ _ (low_reaches _ _ _ Rj) B) as [X|X]; subst st; inversion U; try discriminate; match goal with H : lowers _ _ |- _ => inversion H; discriminate end.
  - intros j s Rj B M. destruct (low_bodies _ _ _ _ (low_reaches _ _ _ Rj) B) as [X|X]; [discriminate X | injection X as ->]. destruct M as [M _]. inversion M.
  - intros r X. discriminate X.
Qed.
Lemma r_settled : settled r_low (fun y => exists j, reaches p_low 0 j /\ y = shifted [] j).
Proof.
  intros y n [j [Rj ->]] B. apply low_reaches in Rj. apply bodies_ok in B. destruct j as [|[|j]]; [| |lia]; vm_compute in B; each B; try discriminate B; injection B as <-; (split; [discriminate | intros m Lo; inversion Lo; discriminate]).
Qed.
Lemma r_below : same_below p_low r_low (shifted []) (reaches p_low 0) /\ reaches p_low 0 1 /\ settled p_low (reaches p_low 0) /\ settled r_low (fun y => exists j, reaches p_low 0 j /\ y = shifted [] j).
Proof.
  split; [refine (added_below p_low r_low _ [] _ _ d_boot 1000 _ r_added); apply wf_progb_sound; vm_compute; reflexivity|]. split; [|split; [apply low_settled, low_reaches | exact r_settled]].
  exists None. split; [intros v; apply low_void|]. apply le_step with (KReal 0); [apply le_here|]. apply ed_direct with (lit "foo"); [body_tac | intros [r X]; discriminate X | live_tac | discriminate].
Qed.
Lemma r_example : wf_prog p_low /\ wf_prog r_low /\ sizes_u64 p_low /\ sizes_u64 r_low /\ one_void p_low /\ added p_low r_low (reaches p_low 0) [] (X_build.at_ 4080 ["boot"]) (pg_defined p_low) d_boot 1000 /\
  settled p_low (reaches p_low 0) /\ settled r_low (fun y => exists j, reaches p_low 0 j /\ y = shifted [] j) /\
  (exists g cs, report idd o_id None p_low = Ret (g, cs) /\ reported g 0 (MExact 24)) /\
  exists g cs, report idd o_id None r_low = Ret (g, cs) /\ reported g 0 (MLower 1024) /\ reported g 1 (MExact 24).
Proof.
  split; [apply wf_progb_sound; vm_compute; reflexivity|]. split; [apply wf_progb_sound; vm_compute; reflexivity|]. split; [apply low_sizes; reflexivity|].
  split; [intros n c I; cbn in I; each I; injection I as <- <-; reflexivity|]. split; [apply low_one|]. split; [exact r_added|]. split; [apply low_settled, low_reaches|]. split; [exact r_settled|].
  split; [eexists; eexists; split; [vm_compute; reflexivity | eexists; split; reflexivity]|]. eexists; eexists; (split; [vm_compute; reflexivity|]); split; eexists; split; reflexivity.
Qed.

(** ** `memcpy` is outside of the executable: a function that `main` does not call makes it known *)
Definition lone (others : list stmt) : prog := mkProg OtherTarget
  [fdef "other" (fsig [] None) others; fdef "main" (fsig [] None) [DirectCall (lit "llvm.memcpy.p0.p0.i64")]] []
  [(lit "main", 8%N); (lit "other", 4%N)] [X_build.at_ 4096 ["main"]; X_build.at_ 4112 ["other"]] [lit "memcpy"] [] None.
Lemma lone_keys void key : leads (lone []) void (KReal 0) key -> key = KReal 0.
Proof.
  intros L. remember (KReal 0) as k0 eqn:E0. induction L as [k1|k1 m l L IH E]; subst; [reflexivity|]. specialize (IH eq_refl). subst m. exfalso.
  inversion E as [x n y B Ni Lf Mc|x n B Ni Lf Mc|x n y B C|x n B C|x n m0 y T B Lo C|x n m0 T B Lo C Kn|x y J|x Bl|x s Cs|s y Cd P|s Cd U]; subst.
  - stmts B. injection B as <-. apply Ni. eexists. reflexivity.
  - stmts B. injection B as <-. apply Ni. eexists. reflexivity.
  - stmts B. discriminate B.
  - stmts B. discriminate B.
  - apply chosen_live in C. apply liveb_ok in C. assert (M : y = 0 /\ m0 = lit "main" \/ y = 1 /\ m0 = lit "other").
    { unfold liveb in C. destruct y as [|[|y]]; cbn in C; [left | right | destruct y; discriminate C]; (split; [reflexivity|]); apply orb_prop in C; destruct C as [C|C]; try discriminate C; apply str_eqb_eq in C; exact C. }
    destruct M as [[_ ->]|[_ ->]]; inversion Lo as [r n0 I|r n0 I|r n0 I]; subst; cbn in I; each I; discriminate I.
  - destruct Kn.
  - destruct J as [? [? [? [[T _] _]]]]. discriminate T.
  - destruct Bl as [[? [? [? [[T _] _]]]] _]. discriminate T.
  - destruct Cs as [_ [s' [B _]]]. stmts B. discriminate B.
Qed.
Lemma lone_reaches j : reaches (lone []) 0 j -> j = 0.
Proof. intros [void [_ L]]. apply lone_keys in L. injection L as ->. reflexivity. Qed.
Lemma lone_differ : wf_prog (lone []) /\ wf_prog (lone [DirectCall (lit "memcpy")]) /\ rewritten (lone []) (lone [DirectCall (lit "memcpy")]) (reaches (lone []) 0) /\ ~ reaches (lone []) 0 1 /\
  (exists g cs, report idd o_id None (lone []) = Ret (g, cs) /\ reported g 0 (MExact 8)) /\
  exists g cs, report idd o_id None (lone [DirectCall (lit "memcpy")]) = Ret (g, cs) /\ reported g 0 (MLower 8).
Proof.
  split; [apply wf_progb_sound; vm_compute; reflexivity|]. split; [apply wf_progb_sound; vm_compute; reflexivity|].
  split; [|split; [intros X; apply lone_reaches in X; discriminate X|]; split; eexists; eexists; (split; [vm_compute; reflexivity | eexists; split; reflexivity])].
  constructor; try reflexivity.
  - assert (X : forall o o' n s, (exists d, In (n, d) (pg_defines (lone o)) /\ d_sig d = s) -> exists d, In (n, d) (pg_defines (lone o')) /\ d_sig d = s).
    { intros o o' n s [d [I <-]]. cbn in I. each I; injection I as <- <-; eexists; (split; [cbn; (left; reflexivity) + (right; left; reflexivity) | reflexivity]). }
    intros n s. split; apply X.
  - intros j st Rj. apply lone_reaches in Rj. subst j. rewrite !bodies_ok. reflexivity.
Qed.
