(** Examples for programs that differ in the names of their functions. *)
From Verif Require Import M_base M_stack M_graph M_filter M_names M_thumb M_ty M_parse M_render M_build M_run S_names S_build S_rename L_base L_names L_driver1 X_build L_rename L_rename2 L_rename3.
Local Open Scope string_scope.
Local Open Scope list_scope.

(** A renaming given by a list. *)
Definition by_list (l : list (str * str)) (n : str) : str := match sget l n with Some m => m | None => n end.
Definition inj_onb (l : list str) (r : str -> str) : bool := forallb (fun a => forallb (fun b => implb (str_eqb (r a) (r b)) (str_eqb a b)) l) l.
Lemma distinct_by l r : forallb (fun n => str_eqb (r n) n) known_names && inj_onb (known_names ++ l) r = true -> distinct l r.
Proof.
  intros H. apply andb_prop in H as [A B]. split; [intros n I; apply str_eqb_eq; exact (proj1 (forallb_forall _ _) A n I)|].
  intros a b Ia Ib E. unfold inj_onb in B. rewrite forallb_forall in B. specialize (B a Ia). cbn beta in B. rewrite forallb_forall in B. specialize (B b Ib). cbn beta in B. rewrite E, str_eqb_refl in B. cbn [implb] in B. apply str_eqb_eq. exact B.
Qed.
(** The names that are looked at, as a list. *)
Definition looks (p : prog) : list str :=
  flat_map (fun x => sy_names (snd x)) (pg_defined p) ++ flat_map (fun x => flat_map (fun st => match st with DirectCall n | BitcastCall (Some n) => [n] | _ => [] end) (d_stmts (snd x))) (pg_defines p).
Lemma looks_all p n : looked_at p n -> In n (looks p).
Proof.
  unfold looks. intros [[a [s [I J]]] | [k [d [st [I [J K]]]]]]; rewrite in_app_iff; [left; apply in_flat_map; exists (a, s); auto | right].
  apply in_flat_map. exists (k, d). split; [exact I|]. apply in_flat_map. exists st. split; [exact J|]. destruct K as [-> | ->]; left; reflexivity.
Qed.
Definition outc_eqb (a b : outcome (option str)) : bool := match a, b with Ret (Some x), Ret (Some y) => str_eqb x y | Ret None, Ret None => true | _, _ => false end.
Definition keepsb (demangle : str -> str) (p : prog) (r : str -> str) : bool :=
  forallb (fun n => Bool.eqb (mapping_symbol (r n)) (mapping_symbol n) && Bool.eqb (is_outlined_function (r n)) (is_outlined_function n) &&
    implb (starts_with (lit "llvm.") n || starts_with (lit "llvm.") (r n)) (str_eqb (r n) n) && outc_eqb (dehash (demangle (r n))) (dehash (demangle n))) (looks p).
Lemma keeps_by demangle p r : keepsb demangle p r = true -> keeps demangle p r.
Proof.
  intros H. unfold keepsb in H. rewrite forallb_forall in H.
  assert (Q : forall n, looked_at p n -> mapping_symbol (r n) = mapping_symbol n /\ is_outlined_function (r n) = is_outlined_function n /\
    implb (starts_with (lit "llvm.") n || starts_with (lit "llvm.") (r n)) (str_eqb (r n) n) = true /\ outc_eqb (dehash (demangle (r n))) (dehash (demangle n)) = true).
  { intros n L. specialize (H n (looks_all p n L)). cbn beta in H. apply andb_prop in H as [H H4]. apply andb_prop in H as [H H3]. apply andb_prop in H as [H1 H2]. apply eqb_prop in H1, H2. auto. }
  constructor.
  - intros n L. apply (Q n L).
  - intros n L. rewrite <- !outlined_spec. destruct (Q n L) as [_ [-> _]]. reflexivity.
  - intros n L O. destruct (Q n L) as [_ [_ [Q3 _]]]. destruct (starts_with (lit "llvm.") n), (starts_with (lit "llvm.") (r n)); cbn [orb implb] in Q3; try (apply str_eqb_eq; exact Q3). destruct O as [O|O]; discriminate O.
  - intros n s L. rewrite <- !dehash_iff. destruct (Q n L) as [_ [_ [_ Q4]]]. destruct (dehash (demangle (r n))) as [[x|]|?|?|], (dehash (demangle n)) as [[y|]|?|?|]; cbn [outc_eqb] in Q4; try discriminate Q4; [apply str_eqb_eq in Q4; subst; reflexivity | split; discriminate].
Qed.
Definition hashesb (demangle : str -> str) (p : prog) (r : str -> str) : bool :=
  forallb (fun n => str_eqb (r n) n || match dehash (demangle n) with Ret (Some s) => forallb (fun m => implb (outc_eqb (dehash (demangle m)) (Ret (Some s))) (str_eqb m n)) (looks p) | _ => false end) (looks p).
Lemma hashes_by demangle p r : hashesb demangle p r = true -> only_hashes demangle p r.
Proof.
  intros H n L N. unfold hashesb in H. rewrite forallb_forall in H. specialize (H n (looks_all p n L)). cbn beta in H. apply orb_prop in H as [H|H]; [apply str_eqb_eq in H; contradiction|].
  destruct (dehash (demangle n)) as [[s|]|?|?|] eqn:E; try discriminate H. exists s. split; [apply dehash_iff; exact E|]. intros m Lm Hm. rewrite forallb_forall in H. specialize (H m (looks_all p m Lm)). cbn beta in H.
  apply dehash_iff in Hm. rewrite Hm in H. cbn [outc_eqb] in H. rewrite str_eqb_refl in H. apply str_eqb_eq. exact H.
Qed.
Definition startb (demangle : str -> str) (p : prog) (r : str -> str) (s s' : str) : bool :=
  forallb (fun n => Bool.eqb (str_eqb (r n) s') (str_eqb n s) && Bool.eqb (starts_with (s' ++ lit "::h") (demangle (r n))) (starts_with (s ++ lit "::h") (demangle n))) (looks p).
Lemma start_by demangle p r s s' : startb demangle p r s s' = true -> same_start demangle p r (Some s) (Some s').
Proof.
  intros H n L. unfold startb in H. rewrite forallb_forall in H. specialize (H n (looks_all p n L)). cbn beta in H. apply andb_prop in H as [A B]. apply eqb_prop in A, B. split; [|exact B].
  rewrite <- !str_eqb_eq, A. reflexivity.
Qed.

(** ** A program whose functions get other hashes *)
Definition q_main := "app::main::h0000000000000001".
Definition q_run := "lib::run::h00000000000000a2".
Definition q_leaf := "lib::leaf::h00000000000000a3".
Definition p_hashes : prog := mkProg OtherTarget
  [fdef q_main (fsig [] None) [DirectCall (lit q_run); DirectCall (lit "llvm.memcpy.p0.p0.i64"); IndirectCall bin; DirectCall (lit "ext")];
   fdef q_run bin [DirectCall (lit q_leaf); DirectCall (lit q_leaf)]; fdef q_leaf (fsig [] None) []; fdef "other" bin []] []
  [(lit q_main, 8%N); (lit q_run, 16%N); (lit q_leaf, 24%N); (lit "memcpy", 4%N)]
  [at_ 4096 [q_main; "reset"]; at_ 4112 [q_run]; at_ 4128 [q_leaf]; at_ 4144 ["memcpy"]; at_ 4160 ["other"]] [lit "ext"] [] None.
(** The hashes of two functions are exchanged, and the third gets another one. *)
Definition r_hashes : str -> str := by_list
  [(lit q_main, lit "app::main::h9fe3b7c2d1a08e55"); (lit q_run, lit "lib::run::h00000000000000a3"); (lit q_leaf, lit "lib::leaf::h00000000000000a2")].
Lemma hashes_example : wf_prog p_hashes /\ distinct (names_of p_hashes) r_hashes /\ keeps idd p_hashes r_hashes /\ same_start idd p_hashes r_hashes (Some (lit "app::main")) (Some (lit "app::main")) /\ only_hashes idd p_hashes r_hashes /\
  renamed r_hashes p_hashes <> p_hashes /\ exists g cs, report idd o_id (Some (lit "app::main")) p_hashes = Ret (g, cs) /\ map nname (gnodes g) <> [] /\ hd [] (map nname (gnodes g)) = lit "app::main" /\ length (gedges g) = 8.
Proof.
  split; [apply wf_progb_sound; vm_compute; reflexivity|]. split; [apply distinct_by; vm_compute; reflexivity|]. split; [apply keeps_by; vm_compute; reflexivity|].
  split; [apply start_by; vm_compute; reflexivity|]. split; [apply hashes_by; vm_compute; reflexivity|]. split; [intros E; vm_compute in E; discriminate E|].
  eexists. eexists. split; [vm_compute; reflexivity|]. split; [discriminate|]. split; reflexivity.
Qed.
(** Two functions with the same name up to the hash are shown with their hashes; the start point is given with its hash. *)
Definition p_twins : prog := mkProg OtherTarget
  [fdef q_main (fsig [] None) [DirectCall (lit "lib::run::h00000000000000b1"); DirectCall (lit "lib::run::h00000000000000b2")];
   fdef "lib::run::h00000000000000b1" (fsig [] None) []; fdef "lib::run::h00000000000000b2" (fsig [] None) []] []
  [(lit q_main, 8%N); (lit "lib::run::h00000000000000b1", 16%N); (lit "lib::run::h00000000000000b2", 24%N)]
  [at_ 4096 [q_main]; at_ 4112 ["lib::run::h00000000000000b1"]; at_ 4128 ["lib::run::h00000000000000b2"]] [] [] None.
Definition r_twins : str -> str := by_list [(lit q_main, lit "app::main::h0000000000000002"); (lit "lib::run::h00000000000000b1", lit "lib::run::h00000000000000c1"); (lit "lib::run::h00000000000000b2", lit "lib::run::h00000000000000c2")].
Lemma twins_example : distinct (names_of p_twins) r_twins /\ keeps idd p_twins r_twins /\ same_start idd p_twins r_twins (Some (lit q_main)) (Some (lit "app::main::h0000000000000002")) /\
  exists g cs, report idd o_id (Some (lit q_main)) p_twins = Ret (g, cs) /\ map nname (gnodes g) = [lit "app::main"; lit "lib::run::h00000000000000b2"; lit "lib::run::h00000000000000b1"].
Proof.
  split; [apply distinct_by; vm_compute; reflexivity|]. split; [apply keeps_by; vm_compute; reflexivity|]. split; [apply start_by; vm_compute; reflexivity|]. eexists. eexists. split; [vm_compute; reflexivity | reflexivity].
Qed.
Lemma twins_shown : wf_prog p_twins /\ distinct (names_of p_twins) r_twins /\ keeps idd p_twins r_twins /\ exists a b, output idd o_id None Top p_twins = Ret a /\ output idd o_id None Top (renamed r_twins p_twins) = Ret b /\ a <> b.
Proof.
  split; [apply wf_progb_sound; vm_compute; reflexivity|]. split; [apply distinct_by; vm_compute; reflexivity|]. split; [apply keeps_by; vm_compute; reflexivity|]. eexists. eexists. split; [vm_compute; reflexivity|]. split; [vm_compute; reflexivity | discriminate].
Qed.
(** Names have meaning: a function called like an intrinsic of LLVM is not a callee any more. *)
Definition r_llvm : str -> str := by_list [(lit q_leaf, lit "llvm.trap"); (lit "llvm.trap", lit q_leaf)].
Lemma llvm_drops : wf_prog p_hashes /\ distinct (names_of p_hashes) r_llvm /\
  exists g cs g' cs', report idd o_id None p_hashes = Ret (g, cs) /\ report idd o_id None (renamed r_llvm p_hashes) = Ret (g', cs') /\ (exists nd nd', nth_error (gnodes g) 0 = Some nd /\ nth_error (gnodes g') 0 = Some nd' /\ nname nd' = nname nd /\ nmax nd' <> nmax nd).
Proof.
  split; [apply wf_progb_sound; vm_compute; reflexivity|]. split; [apply distinct_by; vm_compute; reflexivity|]. eexists. eexists. eexists. eexists. split; [vm_compute; reflexivity|]. split; [vm_compute; reflexivity|].
  eexists. eexists. split; [reflexivity|]. split; [reflexivity|]. split; [reflexivity | discriminate].
Qed.
