(** An example world for the properties of the driver. *)
From Coq Require Import Permutation.
From Verif Require Import M_base M_stack M_graph M_names M_thumb M_ty M_parse M_render M_write M_build M_run M_wrapper M_driver.
From Verif Require Import S_names S_graph S_render S_build S_run S_driver L_base L_build1 L_build2 L_build3 L_build4 L_build7 X_build L_build8 L_run L_run2 L_driver1 L_driver2 L_path L_write L_driver3 L_driver4 L_driver5.
Local Open Scope string_scope.
Local Open Scope list_scope.

Definition nl : str := ["010"%char].
Definition ex_ll : str :=
  lit "define void @main() {" ++ nl ++ lit "start:" ++ nl ++ lit "  call void @leaf()" ++ nl ++ lit "  ret void" ++ nl ++ lit "}" ++ nl ++ nl ++
  lit "define void @leaf() {" ++ nl ++ lit "start:" ++ nl ++ lit "  ret void" ++ nl ++ lit "}" ++ nl.
Definition ex_builtins : str := lit "define void @memcpy() {" ++ nl ++ lit "start:" ++ nl ++ lit "  ret void" ++ nl ++ lit "}" ++ nl.
Definition ex_notes : list note := [NText (lit "   Compiling app"); NLl (lit "t/compiler_builtins-3f.ll"); NRlib (lit "t/cb.rlib"); NText (lit "    Finished")].
Definition ex_stderr : str := concat (map (fun n => note_line n ++ nl) ex_notes).
Definition ex_args : args := mkArgs None (Some (lit "my-app")) None None false false Dot None.
Definition ex_read (path : str) : outcome str :=
  if str_eqb path (lit "t/release/deps/my_app-1f.ll") then Ret ex_ll
  else if str_eqb path (lit "t/release/deps/my_app-1f.o") then Ret (lit "OBJ")
  else if str_eqb path (lit "t/release/my-app") then Ret (lit "ELF")
  else if str_eqb path (lit "t/compiler_builtins-3f.ll") then Ret ex_builtins
  else Fail (lit "no such file").
Definition ex_object (buf : str) : outcome (list (str * N)) :=
  if str_eqb buf (lit "OBJ") then Ret [(lit "main", 16%N); (lit "leaf", 8%N)] else Ret [(lit "memcpy", 4%N)].
Definition ex_path (example : bool) (file : str) (flag : option str) (host : str) : outcome str :=
  Ret (lit "t/" ++ match flag with Some t => t ++ lit "/" | None => [] end ++ lit "release/" ++ (if example then lit "examples/" else []) ++ file).
Definition ex_dir (d : str) : outcome (list (outcome entry)) :=
  if str_eqb d (lit "t/release/deps") then
    Ret [Ret (mkEntry (lit "my_app-0a.ll") true (Ret 3%N)); Ret (mkEntry (lit "other-77.ll") true (Ret 9%N)); Ret (mkEntry (lit "my_app-1f.ll") true (Ret 5%N));
         Ret (mkEntry (lit "my_app-1f.o") true (Ret 6%N)); Ret (mkEntry (lit "readme") true (Ret 7%N))]
  else Fail (lit "no such directory").
Definition ex_cfg (target : str) : outcome str :=
  Ret (lit "debug_assertions" ++ nl ++ (if starts_with (lit "thumb") target then lit "target_os=" ++ dquote :: lit "none" ++ [dquote] else lit "unix") ++ nl).
(** [sources]: the files that can be touched; [walk]: the listing of `src`. *)
Definition full_world (a : args) (config : option str) (hash override : option str) (stderr : str) (code : option Z) (sources walk : list str) (fault : faults) : world :=
  mkWorld false [] (fun _ _ => Fail []) hash (lit "x86_64-unknown-linux-gnu") (Ret tt) override a (Ret config) (lit "/w") ex_cfg
    (Ret (lit "/bin/cargo-call-stack")) (fun f => if existsb (str_eqb f) sources then Ret tt else Fail (lit "no such file")) (fun f => str_eqb f (lit "/w/src"))
    (fun d => map Ret (if str_eqb d (lit "/w/src") then walk else []))
    (fun _ => Ret (stderr, code)) (fun _ => true) ex_path ex_dir
    ex_read ex_object
    (fun _ => Ret [Ret (mkMember (lit "compiler_builtins-3.o") true (Ret (lit "CB"))); Ret (mkMember (lit "lib.rmeta") true (Fail []))])
    (fun _ => Ret (mkElf [X_build.at_ 4096 ["main"]; X_build.at_ 4112 ["leaf"]; X_build.at_ 4128 ["memcpy"]] []))
    (fun _ => Ret [(4096%N, lit "$t")]) (fun _ => Some (4096%N, repeat "000"%char 48)) (fun m => rev m) o_rev fault.
Definition ex_world (a : args) (config : option str) (hash override : option str) (stderr : str) (code : option Z) : world :=
  full_world a config hash override stderr code [lit "/w/src/main.rs"] [lit "/w/src"; lit "/w/src/main.rs"] (fun _ => None).
Definition good : option str := Some supported_hash.
Definition ex_w : world := ex_world ex_args None good None ex_stderr (Some 0%Z).

Lemma full_sane a config hash override stderr code sources walk fault : sane (full_world a config hash override stderr code sources walk fault).
Proof.
  constructor; cbn.
  - reflexivity.
  - intros m. symmetry. apply Permutation_rev.
  - exact o_rev_fair.
  - intros elf s E. injection E as <-. split; [apply (nodupb_sound N.eqb); [apply N.eqb_refl | reflexivity] | apply (nodupb_sound str_eqb); [apply L_base.str_eqb_refl | vm_compute; reflexivity]].
Qed.
Lemma ex_sane a config hash override stderr code : sane (ex_world a config hash override stderr code).
Proof. apply full_sane. Qed.

(** The run. *)
Definition ex_out : str := lit "digraph {
    node [fontname=monospace shape=box]
    0 [label=""main\nmax = 24\nlocal = 16""]
    1 [label=""leaf\nmax = 8\nlocal = 8""]
    2 [label=""memcpy\nmax = 4\nlocal = 4""]
    0 -> 1
}
".
Lemma ex_run : exists t, main idd ex_w = (t, 0%Z) /\ printed t = [ex_out] /\ errors t = map lit ["   Compiling app"; "    Finished"] /\
  commands t = [(lit "rustc", map lit ["--print=cfg"; "--target"; "x86_64-unknown-linux-gnu"]);
    (lit "cargo", map lit ["rustc"; "--bin"; "my-app"; "--release"; "-Zbuild-std"; "--color=always"; "--"; "--emit=llvm-ir,obj"; "-C"; "embed-bitcode=yes"; "-C"; "lto=fat"])].
Proof. eexists. split; [vm_compute; reflexivity|]. split; [vm_compute; reflexivity|]. split; vm_compute; reflexivity. Qed.

(** The program that is analysed. *)
Definition ex_p : prog := mkProg OtherTarget
  [fdef "memcpy" (fsig [] None) [Label; Other]; fdef "leaf" (fsig [] None) [Label; Other]; fdef "main" (fsig [] None) [Label; DirectCall (lit "leaf"); Other]] []
  [(lit "main", 16%N); (lit "leaf", 8%N); (lit "memcpy", 4%N)]
  [X_build.at_ 4096 ["main"]; X_build.at_ 4112 ["leaf"]; X_build.at_ 4128 ["memcpy"]] [] [] None.
Lemma ex_load : load ex_w (lit "x86_64-unknown-linux-gnu") (lit "my-app") (lit "t/cb.rlib") (lit "t/compiler_builtins-3f.ll") = Ret ex_p.
Proof. vm_compute. reflexivity. Qed.
Lemma ex_chosen i n : chosen ex_p i n -> choose_b ex_p i = Some n.
Proof.
  intros C. pose proof (live_lt ex_p _ _ (chosen_live ex_p _ _ C)) as L. cbn in L.
  assert (K : forall m, choose_b ex_p i = Some m -> choose_b ex_p i = Some n) by (intros m K; rewrite K; f_equal; exact (chosen_fun ex_p _ _ _ (chosen_find _ _ _ K) C)).
  destruct i as [|[|[|i]]]; try lia; eapply K; vm_compute; reflexivity.
Qed.
Lemma ex_covered : covered ex_p.
Proof.
  intros i. constructor.
  - intros _ j L. exfalso. apply live_find in L. destruct j as [|[|[|j]]]; try (vm_compute in L; discriminate L). cbn [nth_error pg_defined ex_p] in L. destruct j; exact L.
  - intros f j B L. apply body_in in B. destruct B as [n [d [I K]]]. cbn in I. each I; injection I as <- <-; cbn in K; each K; discriminate K.
  - intros _ f n j B I L. exfalso. apply body_in in B. destruct B as [m [d [K1 K2]]]. cbn in K1. each K1; injection K1 as <- <-; cbn in K2; each K2; try discriminate K2; injection K2 as <-; inversion I; discriminate.
  - intros s' j s r _ [ns [n [_ [_ [_ []]]]]].
  - intros _ s' B. exfalso. apply body_in in B. destruct B as [m [d [K1 K2]]]. cbn in K1. each K1; injection K1 as <- <-; cbn in K2; each K2; discriminate K2.
  - intros s' j s B. exfalso. apply body_in in B. destruct B as [n [d [I K]]]. cbn in I. each I; injection I as <- <-; cbn in K; each K; discriminate K.
  - apply all_read. vm_compute. reflexivity.
  - intros T. discriminate T.
  - intros [[c B] _]. apply body_in in B. destruct B as [n [d [I K]]]. cbn in I. each I; injection I as <- <-; cbn in K; each K; discriminate K.
Qed.
Lemma ex_fits : fits ex_p.
Proof.
  exists (fun i => nth i [16; 8; 4]%N 0%N). split; [|vm_compute; reflexivity]. intros i k U.
  assert (L : llvm_size ex_p i (Some k)) by (inversion U; try assumption; match goal with A : S_build.analysed _ _ _ _ _ |- _ => destruct A as [A _]; discriminate A end).
  destruct L as [n [C I]]. apply ex_chosen in C. destruct i as [|[|[|i]]]; vm_compute in C; try (destruct i; discriminate C); injection C as <-; cbn in I; each I; try discriminate I; injection I as <-; reflexivity.
Qed.
Lemma ex_runs : runs ex_p 0 [0; 1] /\ depth ex_p [0; 1] 24.
Proof.
  split.
  - apply runs_call with 1; [|constructor; cbn; lia]. apply iv_direct with (lit "leaf"); [eexists; eexists; split; [cbn; right; right; left; reflexivity | split; [live_tac | cbn; tauto]] | | live_tac]. intros [r K]; discriminate K.
  - change 24%N with (16 + (8 + 0))%N. constructor; [|constructor; [|constructor]].
    + apply us_llvm; [left; reflexivity|]. exists (lit "main"). split; [apply chosen_find; vm_compute; reflexivity | cbn; left; reflexivity].
    + apply us_llvm; [left; reflexivity|]. exists (lit "leaf"). split; [apply chosen_find; vm_compute; reflexivity | cbn; right; left; reflexivity].
Qed.

(** ** Counterexamples *)
(** C48: the lines of a text. *)
Lemma lines_example :
  let cr := "013"%char in let lf := "010"%char in
  lines_of (lit "one" ++ [cr; cr; lf; lf] ++ lit "@CARGO_CALL_STACK:compiler_builtins_ll_path@/x" ++ [cr; lf] ++ lit "@CARGO_CALL_STACK:y" ++ [cr])
    [lit "one" ++ [cr]; []; lit "@CARGO_CALL_STACK:compiler_builtins_ll_path@/x"; lit "@CARGO_CALL_STACK:y" ++ [cr]] /\
  Forall2 says_note [lit "one" ++ [cr]; []; lit "@CARGO_CALL_STACK:compiler_builtins_ll_path@/x"; lit "@CARGO_CALL_STACK:y" ++ [cr]]
    [NText (lit "one" ++ [cr]); NText []; NLl (lit "/x"); NText (lit "@CARGO_CALL_STACK:y" ++ [cr])].
Proof.
  cbv zeta. split.
  - assert (X : forall s ls, buf_lines s = ls -> lines_of s ls).
    { intros s ls E. destruct (lines_of_total s) as [l H]. now rewrite <- E, (lines_of_buf _ _ H). }
    apply X. reflexivity.
  - assert (X : forall l, Forall2 says_note l (map line_note l)).
    { induction l as [|x l IH]; constructor; [|exact IH]. destruct (says_note_total x) as [n H]. now rewrite <- (says_note_read x n H). }
    match goal with |- Forall2 _ ?l _ => exact (X l) end.
Qed.
(** C50: a name that starts with a dash. *)
Definition dash_args : args := mkArgs None (Some (lit "-x")) None None false false Dot None.
Lemma dash_refused : exists w t c rest, sane w /\ main idd w = (t, c) /\ In (lit "cargo", lit "rustc" :: rest) (commands t) /\ read_cargo rest request0 = None.
Proof.
  eexists (ex_world dash_args None good None ex_stderr (Some 0%Z)). eexists. eexists. eexists. split; [apply ex_sane|]. split; [vm_compute; reflexivity|].
  split; [right; left; reflexivity | reflexivity].
Qed.
(** C51: the configuration file names a target and the flag another one. *)
Definition flag_args : args := mkArgs (Some (lit "x86_64-unknown-linux-gnu")) (Some (lit "my-app")) None None false false Dot None.
Definition ex_config : option str := Some (lit "thumbv7m-none-eabi").
Lemma other_target : exists w t c rest q, sane w /\ main idd w = (t, c) /\ w_project w = Ret ex_config /\
  In (lit "cargo", lit "rustc" :: rest) (commands t) /\ read_cargo rest request0 = Some q /\
  rq_target q = Some (lit "x86_64-unknown-linux-gnu") /\ rq_build_std q = Some (lit "core,alloc,compiler_builtins") /\
  In (lit "rustc", map lit ["--print=cfg"; "--target"; "thumbv7m-none-eabi"]) (commands t).
Proof.
  eexists (ex_world flag_args ex_config good None ex_stderr (Some 0%Z)). eexists. eexists. eexists. eexists. split; [apply ex_sane|]. split; [vm_compute; reflexivity|]. split; [reflexivity|].
  split; [right; left; reflexivity|]. split; [vm_compute; reflexivity|]. split; [reflexivity|]. split; [reflexivity|]. left. reflexivity.
Qed.
(** C48: a carriage return at the end of a line is lost. *)
Lemma return_lost : exists w t c command line, sane w /\ main idd w = (t, c) /\ In (lit "cargo", command) (commands t) /\
  w_cargo w command = Ret (line ++ ["010"%char], Some 1%Z) /\ ~ In "010"%char line /\ text_line line /\ errors t <> [line].
Proof.
  eexists (ex_world ex_args None good None (lit "100%" ++ ["013"%char; "010"%char]) (Some 1%Z)). eexists. eexists. eexists. exists (lit "100%" ++ ["013"%char]). split; [apply ex_sane|]. split; [vm_compute; reflexivity|].
  split; [right; left; reflexivity|]. split; [reflexivity|]. split; [|split; [intros r; discriminate | vm_compute; discriminate]]. intros I. cbn in I. repeat (destruct I as [I|I]; [discriminate I|]). exact I.
Qed.
(** C46: a question about the compiler's version. *)
Lemma version_fails : forall utf8 exe rustc f, commands (fst (wrapper utf8 [exe; rustc; lit "-vV"] f)) = [] /\ forall code, snd (wrapper utf8 [exe; rustc; lit "-vV"] f) <> Ret code.
Proof. intros utf8 exe rustc f. unfold wrapper. destruct (forallb utf8 [exe; rustc; lit "-vV"]); (split; [reflexivity | intros code; discriminate]). Qed.
(** C46: a file name that is not UTF-8. *)
Lemma bytes_fail : exists utf8 args, commands (fst (wrapper utf8 args (fun _ _ => Ret (Some 0%Z)))) = [] /\ commands (fst (wrapper (fun _ => true) args (fun _ _ => Ret (Some 0%Z)))) <> [].
Proof. exists (fun s => negb (existsb (Ascii.eqb "255") s)), (map lit ["tool"; "rustc"; "--crate-name"; "app"] ++ [["255"%char]]). split; [reflexivity | discriminate]. Qed.
(** C47: forms of options which rustc understands and the wrapper does not. *)
Lemma equals_form : exists m, parse_args [lit "--crate-name=app"] = Fail m.
Proof. eexists. reflexivity. Qed.
Lemma extern_options : exists a, parse_args (map lit ["--crate-name"; "app"; "--extern"; "priv,noprelude:core=libcore.rlib"]) = Ret a /\
  ra_externs a = [mkExtern (lit "priv,noprelude:core") (Some (lit "libcore.rlib"))].
Proof. eexists. split; reflexivity. Qed.

Lemma ex_notes_ok : Forall note_ok ex_notes.
Proof.
  assert (P : forall l, forallb (fun c => negb (Ascii.eqb c "010")) l = true -> negb (Ascii.eqb (last l " "%char) "013") = true -> plain_line l).
  { intros l H1 H2. split.
    - intros I. rewrite forallb_forall in H1. specialize (H1 _ I). discriminate H1.
    - intros r ->. rewrite last_last in H2. discriminate H2. }
  repeat constructor; try (apply P; reflexivity); intros r; discriminate.
Qed.
Lemma ex_names : forall g cycles nd, report idd o_rev None ex_p = Ret (g, cycles) -> In nd (gnodes g) -> no_backslash (nname nd).
Proof.
  intros g cycles nd E I. assert (X : exists x, report idd o_rev None ex_p = Ret x /\ forallb (fun nd => forallb (fun c => negb (Ascii.eqb c backslash)) (nname nd)) (gnodes (fst x)) = true).
  { eexists. split; vm_compute; reflexivity. }
  destruct X as [x [X1 X2]]. rewrite E in X1. injection X1 as <-. rewrite forallb_forall in X2. specialize (X2 nd I). intros K. rewrite forallb_forall in X2. specialize (X2 _ K). discriminate X2.
Qed.

(** ** The touched file *)
Lemma ex_touches : touches ex_w (Some (lit "/w/src/main.rs")).
Proof. apply to_main; [exact (join_inside (lit "/w") (lit "src/main.rs")) | reflexivity]. Qed.
(** A package without `main.rs` and `lib.rs`. *)
Definition bins_w : world := full_world ex_args None good None ex_stderr (Some 0%Z) [lit "/w/src/bin/my-app.rs"] (map lit ["/w/src"; "/w/src/bin"; "/w/src/bin/notes.txt"; "/w/src/bin/my-app.rs"; "/w/src/bin/other.rs"]) (fun _ => None).
Lemma bins_touch : exists t, main idd bins_w = (t, 0%Z) /\ touched t = [lit "/w/src/bin/my-app.rs"] /\ touches bins_w (Some (lit "/w/src/bin/my-app.rs")).
Proof.
  eexists. split; [vm_compute; reflexivity|]. split; [reflexivity|]. destruct (touch_spec bins_w) as [[r [T E]]|[E _]]; vm_compute in E; [|discriminate E].
  destruct r as [f|]; [injection E as E|discriminate E]. subst f. exact T.
Qed.
(** A directory whose name ends with `.rs` comes first. *)
Definition dir_w : world := full_world ex_args None good None ex_stderr (Some 0%Z) (map lit ["/w/src/x.rs"; "/w/src/x.rs/my-app.rs"]) (map lit ["/w/src"; "/w/src/x.rs"; "/w/src/x.rs/my-app.rs"]) (fun _ => None).
Lemma directory_touched : exists w t c f g, sane w /\ main idd w = (t, c) /\ touched t = [f] /\ In (Ret g) (w_walk w (lit "/w/src")) /\ inside f (lit "my-app.rs") g /\ w_set_times w g = Ret tt.
Proof.
  exists dir_w. eexists. eexists. exists (lit "/w/src/x.rs"), (lit "/w/src/x.rs/my-app.rs"). split; [apply full_sane|]. split; [vm_compute; reflexivity|]. split; [reflexivity|]. split; [right; right; left; reflexivity|].
  split; [|reflexivity]. exact (join_inside (lit "/w/src/x.rs") (lit "my-app.rs")).
Qed.
(** ** Errors of stdout *)
Definition pipe_w : world := full_world ex_args None good None ex_stderr (Some 0%Z) [lit "/w/src/main.rs"] [] (fun k => if Nat.ltb k 8 then None else Some (lit "Broken pipe")).
Lemma pipe_breaks : exists t, main idd pipe_w = (t, 1%Z) /\ printed t = [lit "digraph "] /\ errors t = map lit ["   Compiling app"; "    Finished"; "error: Broken pipe"].
Proof. eexists. split; [vm_compute; reflexivity|]. split; vm_compute; reflexivity. Qed.
(** ** Missing files *)
Definition missing_args : args := mkArgs (Some (lit "thumbv6m-none-eabi")) (Some (lit "my-app")) None None false false Dot None.
Definition missing_w : world := ex_world missing_args None good None ex_stderr (Some 0%Z).
Lemma missing_named : exists t, main idd missing_w = (t, 1%Z) /\ errors t = map lit ["   Compiling app"; "    Finished"; "error: couldn't open ELF file `t/thumbv6m-none-eabi/release/my-app`: no such file"] /\
  executable missing_w (lit "my-app") (lit "t/thumbv6m-none-eabi/release/my-app") /\ w_read missing_w (lit "t/thumbv6m-none-eabi/release/my-app") = Fail (lit "no such file").
Proof. eexists. split; [vm_compute; reflexivity|]. split; [vm_compute; reflexivity|]. split; vm_compute; reflexivity. Qed.
Lemma missing_notes : In (lit "cargo", cargo_args missing_args (lit "my-app") true) (commands (fst (main idd missing_w))) /\
  w_cargo missing_w (cargo_args missing_args (lit "my-app") true) = Ret (concat (map (fun n => note_line n ++ ["010"%char]) ex_notes), Some 0%Z) /\
  one_artifact (w_args missing_w) (lit "my-app") /\ latest rlib_of ex_notes (Some (lit "t/cb.rlib")) /\ latest ll_of ex_notes (Some (lit "t/compiler_builtins-3f.ll")).
Proof. split; [vm_compute; right; left; reflexivity|]. split; [reflexivity|]. split; [right; split; reflexivity|]. split; [exact (last_of_latest rlib_of ex_notes) | exact (last_of_latest ll_of ex_notes)]. Qed.
(** ** The verbose mode *)
Definition verbose_w : world := ex_world (mkArgs None (Some (lit "my-app")) None None false true Dot None) None good None ex_stderr (Some 0%Z).
Lemma verbose_run : exists t, main idd verbose_w = (t, 0%Z) /\
  shown t = [(lit "cargo", map lit ["rustc"; "--bin"; "my-app"; "--release"; "-Zbuild-std"; "--color=always"; "--"; "--emit=llvm-ir,obj"; "-C"; "embed-bitcode=yes"; "-C"; "lto=fat"])] /\
  exists a, In (ECmd (lit "cargo") [(lit "CARGO_CALL_STACK_RUSTC_WRAPPER", lit "1"); (lit "RUSTC_WRAPPER", lit "/bin/cargo-call-stack")] a) t.
Proof. eexists. split; [vm_compute; reflexivity|]. split; [vm_compute; reflexivity|]. eexists. right. right. right. left. reflexivity. Qed.
