(** Lemmas on the driver: what a run does. *)
From Verif Require Import M_base L_base M_names L_names M_thumb M_parse M_graph M_render M_write M_build M_run M_log M_wrapper M_driver S_build S_driver L_log L_driver1 L_driver2 L_path L_write.

Definition stops {A} (r : outcome A) : Prop := forall z, r <> Ret z.
Lemma ibind_ret {A B} (a : A) (f : A -> io B) : ibind (lift (Ret a)) f = f a.
Proof. unfold ibind, lift. cbn. now destruct (f a). Qed.
Lemma ibind_iret {A B} (a : A) (f : A -> io B) : ibind (iret a) f = f a.
Proof. exact (ibind_ret a f). Qed.
Lemma ibind_stop {A B} (t : list event) (o : outcome A) (f : A -> io B) : stops o -> fst (ibind (t, o) f) = t /\ stops (snd (ibind (t, o) f)).
Proof. intros S. destruct o; [now destruct (S a)| | |]; (split; [reflexivity | intros z; discriminate]). Qed.
Lemma ibind_go {A B} (t : list event) (a : A) (f : A -> io B) : ibind (t, Ret a) f = (t ++ fst (f a), snd (f a)).
Proof. reflexivity. Qed.
Lemma ibind_say {B} e (f : unit -> io B) : ibind (say e) f = (e :: fst (f tt), snd (f tt)).
Proof. reflexivity. Qed.
Lemma outcome_dec {A} (o : outcome A) : (exists a, o = Ret a) \/ stops o.
Proof. destruct o; [left; now eexists| | |]; right; intros z; discriminate. Qed.
Lemma commands_app a b : commands (a ++ b) = commands a ++ commands b. Proof. apply select_app. Qed.
Lemma printed_app a b : printed (a ++ b) = printed a ++ printed b. Proof. apply select_app. Qed.
Lemma touched_app a b : touched (a ++ b) = touched a ++ touched b. Proof. apply select_app. Qed.
Lemma errors_app a b : errors (a ++ b) = errors a ++ errors b. Proof. apply select_app. Qed.
Lemma messages_app a b : messages (a ++ b) = messages a ++ messages b. Proof. apply select_app. Qed.
Lemma read_silent utf8 lines : forall r l, commands (fst (read_stderr utf8 lines r l)) = [] /\ printed (fst (read_stderr utf8 lines r l)) = [].
Proof.
  induction lines as [|x lines IH]; intros r l; cbn [read_stderr]; [now split|]. destruct (negb (utf8 x)); [now split|].
  destruct (starts_with rlib_marker x); [apply IH|]. destruct (starts_with ll_marker x); [apply IH|]. rewrite ibind_say. cbn [fst]. exact (IH r l).
Qed.

(** ** Reading the files *)
(** [load] with the symbol table at its end. *)
Lemma load_flat w target file rlib ll : load w target file rlib ll =
  (let a := w_args w in
   let* path := w_path w (match a_example a with Some _ => true | None => false end) file (a_target a) (w_host w) in
   let* elf := context (lit "couldn't open ELF file `") path (w_read w path) in
   let path := parent path in
   let path := match a_bin a with Some _ => join path (lit "deps") | None => path end in
   let* dir := w_dir w path in
   let* best := pick_ll (replace_char "-" "_" file ++ lit "-") dir None in
   match best with
   | None => Panic "unreachable"
   | Some (ll_name, _) =>
       let ll_path := join path ll_name in
       let obj_path := join path (object_of ll_name) in
       let* ll_text := context (lit "couldn't read LLVM IR from `") ll_path (read_to_string w ll_path) in
       let* obj := context (lit "couldn't read object file `") obj_path (w_read w obj_path) in
       let* builtins := context (lit "couldn't read `compiler_builtins` LLVM IR from `") ll (read_to_string w ll) in
       let* items := parse_ir (lit "failed to parse application's LLVM IR from `") ll_path ll_text in
       let* builtins_items := parse_ir (lit "failed to parse `compiler_builtins` LLVM IR from `") ll builtins in
       let all := items ++ builtins_items in
       let t := classify_target target in
       let* sizes := w_object w obj in
       let* ms := context (lit "couldn't open `") rlib (w_archive w rlib) in
       let* more := archive_sizes w ms in
       let* symbols := w_executable w elf in
       let* symtab := if is_thumb t then w_symtab w elf else Ret [] in
       Ret (mkProg t (w_defines_order w (collect_defines all)) (collect_declares all) (collect_sizes (sizes :: more))
                   (clear_thumb t (el_defined symbols)) (map strip_version (el_undefined symbols))
                   (collect_tags symtab) (if is_thumb t then w_text w elf else None))
   end).
Proof.
  unfold load, load_files. cbv zeta.
  do 3 (match goal with |- bind (bind ?x _) _ = bind ?x _ => destruct x; cbn [bind]; [|reflexivity..] end).
  match goal with |- bind (bind ?x _) _ = bind ?x _ => destruct x as [[[n t]|]| | |]; cbn [bind]; [|reflexivity..] end.
  do 9 (match goal with |- bind (bind ?x _) _ = bind ?x _ => destruct x; cbn [bind]; [|reflexivity..] end).
  reflexivity.
Qed.
Lemma loading_ret demangle w target file rlib ll p : load w target file rlib ll = Ret p -> loading demangle w target file rlib ll = iret p.
Proof.
  unfold load, loading. destruct (load_files w target file rlib ll) as [[q s]| | |]; cbn [bind]; try discriminate. destruct s; cbn [bind]; try discriminate. intros E. injection E as <-. reflexivity.
Qed.
Lemma loading_stops demangle w target file rlib ll : stops (load w target file rlib ll) ->
  exists ms, fst (loading demangle w target file rlib ll) = map ELog ms /\ stops (snd (loading demangle w target file rlib ll)).
Proof.
  unfold load, loading. intros S. destruct (load_files w target file rlib ll) as [[q s]| | |]; [|exists []; split; [reflexivity | intros z; discriminate]..].
  cbn [bind] in S. rewrite ibind_ret. unfold read_symtab. destruct s as [s| | |]; [destruct (S _ eq_refl)|..];
    (exists (fst (early_log demangle q)); unfold logged; destruct (snd (early_log demangle q)); unfold ibind, lift; cbn [fst snd bind]; rewrite ?app_nil_r; (split; [reflexivity | intros z; discriminate])).
Qed.
Lemma loading_inv demangle w target file rlib ll p : snd (loading demangle w target file rlib ll) = Ret p -> load w target file rlib ll = Ret p.
Proof.
  intros E. destruct (outcome_dec (load w target file rlib ll)) as [[q L]|S]; [rewrite (loading_ret _ _ _ _ _ _ _ L) in E; cbn [iret snd] in E; congruence|].
  destruct (loading_stops demangle w target file rlib ll S) as [ms [_ K]]. destruct (K _ E).
Qed.
Lemma loading_logs demangle w target file rlib ll : exists ms, fst (loading demangle w target file rlib ll) = map ELog ms.
Proof.
  destruct (outcome_dec (load w target file rlib ll)) as [[p E]|S]; [exists []; rewrite (loading_ret _ _ _ _ _ _ _ E); reflexivity|]. destruct (loading_stops demangle w target file rlib ll S) as [ms [E _]]. now exists ms.
Qed.

Section Run.
Variables (demangle : str -> str) (w : world) (target file : str).
(** Stages of a run, from the last to the first. *)
Definition analysed (rlib ll : option str) (t : io Z) : Prop :=
  (exists ms, fst t = map ELog ms /\ stops (snd t)) \/
  exists r l p text out e, rlib = Some r /\ ll = Some l /\ load w target file r l = Ret p /\
    output demangle (w_orders w) (a_start (w_args w)) (a_format (w_args w)) p = Ret text /\ received (w_fault w) text out e /\
    fst t = map ELog (fst (report_log demangle (w_orders w) (a_start (w_args w)) p)) ++ [EOut out] /\ snd t = match e with Some m => Fail m | None => Ret 0%Z end.
Lemma output_says p : match report demangle (w_orders w) (a_start (w_args w)) p with
  | Ret (g, cycles) => exists text, output demangle (w_orders w) (a_start (w_args w)) (a_format (w_args w)) p = Ret text /\ says (w_fault w) (write_output w demangle g cycles) text
  | _ => stops (output demangle (w_orders w) (a_start (w_args w)) (a_format (w_args w)) p)
  end.
Proof.
  unfold output. destruct (report demangle (w_orders w) (a_start (w_args w)) p) as [[g cycles]| | |]; try (intros z; discriminate). cbn [bind]. eexists. split; [reflexivity|].
  unfold write_output. destruct (a_format (w_args w)); [apply says_dot | apply says_top].
Qed.
Lemma logs_silent ms : commands (map ELog ms) = [] /\ printed (map ELog ms) = [] /\ touched (map ELog ms) = [] /\ errors (map ELog ms) = [].
Proof. induction ms as [|m ms IH]; [repeat split; reflexivity|]. exact IH. Qed.
Lemma log_parts p : logged (report_log demangle (w_orders w) (a_start (w_args w)) p) =
  (map ELog (fst (report_log demangle (w_orders w) (a_start (w_args w)) p)), report demangle (w_orders w) (a_start (w_args w)) p).
Proof. unfold logged. rewrite (report_erase demangle (w_orders w) (a_start (w_args w)) p). reflexivity. Qed.
Lemma analyse_shape rlib ll : analysed rlib ll (analyse demangle w target file (rlib, ll)).
Proof.
  unfold analyse. destruct rlib as [r|]; [|left; exists []; split; [reflexivity | intros z; discriminate]]. destruct ll as [l|]; [|left; exists []; split; [reflexivity | intros z; discriminate]].
  destruct (outcome_dec (load w target file r l)) as [[p E]|S].
  2:{ left. destruct (loading_stops demangle w target file r l S) as [ms [E1 E2]]. destruct (loading demangle w target file r l) as [t o]. cbn [fst snd] in E1, E2. exists ms. rewrite <- E1. now apply ibind_stop. }
  rewrite (loading_ret demangle _ _ _ _ _ _ E), ibind_iret. pose proof (output_says p) as O.
  rewrite log_parts. set (ms := fst (report_log demangle (w_orders w) (a_start (w_args w)) p)).
  destruct (report demangle (w_orders w) (a_start (w_args w)) p) as [[g cycles]| | |]; [|left; exists ms; split; [reflexivity | intros z; discriminate]..].
  destruct O as [text [O S]]. rewrite ibind_go. destruct (received_any (w_fault w) text) as [out [e R]]. rewrite (emit_says _ _ _ _ _ S R).
  right. exists r, l, p, text, out, e. split; [reflexivity|]. split; [reflexivity|]. split; [exact E|]. split; [exact O|]. split; [exact R|]. destruct e; split; reflexivity.
Qed.
Lemma analyse_goes r l p text out : load w target file r l = Ret p -> output demangle (w_orders w) (a_start (w_args w)) (a_format (w_args w)) p = Ret text ->
  received (w_fault w) text out None -> analyse demangle w target file (Some r, Some l) = (map ELog (fst (report_log demangle (w_orders w) (a_start (w_args w)) p)) ++ [EOut out], Ret 0%Z).
Proof.
  intros L O R. unfold analyse. rewrite (loading_ret demangle _ _ _ _ _ _ L), ibind_iret, log_parts. pose proof (output_says p) as H. set (ms := fst (report_log demangle (w_orders w) (a_start (w_args w)) p)). destruct (report demangle (w_orders w) (a_start (w_args w)) p) as [[g cycles]| | |]; [|now destruct (H text)..].
  destruct H as [text' [O' S]]. rewrite O in O'. injection O' as <-. rewrite ibind_go, (emit_says _ _ _ _ _ S R). reflexivity.
Qed.
Definition built_shape (command : list str) (t : io Z) : Prop :=
  exists tail, commands (fst t) = [(lit "cargo", command)] /\ fst t = hd (EErr []) (fst t) :: tail /\
  ((printed (fst t) = [] /\ stops (snd t)) \/
   exists text code echo rlib ll after, w_cargo w command = Ret (text, code) /\ read_stderr (w_utf8 w) (buf_lines text) None None = (echo, Ret (rlib, ll)) /\
     tail = echo ++ fst after /\ snd t = snd after /\ printed (fst t) = printed (fst after) /\
     ((code = Some 0%Z /\ analysed rlib ll after) \/
      (code <> Some 0%Z /\ fst after = [] /\ snd after = Ret (match code with Some c => c | None => 1%Z end)))).
Lemma build_shape exe command : built_shape command (build_and_analyse demangle w target file exe command).
Proof.
  unfold build_and_analyse. rewrite ibind_say. eexists. split; [|split; [reflexivity|]].
  - cbn [fst]. set (e := ECmd _ _ _). change (e :: ?x) with ([e] ++ x). cbn. destruct (outcome_dec (w_cargo w command)) as [[[text code] E]|S].
    + rewrite E, ibind_ret. cbn [fst snd]. destruct (read_silent (w_utf8 w) (buf_lines text) None None) as [Q _].
      destruct (read_stderr (w_utf8 w) (buf_lines text) None None) as [echo o] eqn:R. cbn [fst] in Q. destruct (outcome_dec o) as [[[rlib ll] ->]|S].
      * rewrite ibind_go. cbn [fst]. fold (commands (echo ++ fst match code with Some 0%Z => analyse demangle w target file (rlib, ll) | Some code => iret code | None => iret 1%Z end)).
        rewrite commands_app, Q. cbn [app]. destruct code as [[|c|c]|]; try reflexivity. destruct (analyse_shape rlib ll) as [[ms [-> _]]|[r [l [p [text' [out [e' [_ [_ [_ [_ [_ [-> _]]]]]]]]]]]]].
        -- now rewrite (proj1 (logs_silent ms)).
        -- rewrite commands_app, (proj1 (logs_silent _)). reflexivity.
      * destruct (ibind_stop echo o (fun paths => match code with Some 0%Z => analyse demangle w target file paths | Some code => iret code | None => iret 1%Z end) S) as [-> _].
        fold (commands echo). now rewrite Q.
    + destruct (ibind_stop [] (w_cargo w command) (fun child => do* paths := read_stderr (w_utf8 w) (buf_lines (fst child)) None None in
        match snd child with Some 0%Z => analyse demangle w target file paths | Some code => iret code | None => iret 1%Z end) S) as [K _]. unfold lift. now rewrite K.
  - cbn [fst snd]. set (e := ECmd _ _ _). destruct (outcome_dec (w_cargo w command)) as [[[text code] E]|S].
    + rewrite E, ibind_ret. cbn [fst snd]. destruct (read_silent (w_utf8 w) (buf_lines text) None None) as [_ Q].
      destruct (read_stderr (w_utf8 w) (buf_lines text) None None) as [echo o] eqn:R. cbn [fst] in Q. destruct (outcome_dec o) as [[[rlib ll] ->]|S].
      * right. rewrite ibind_go. cbn [fst snd]. set (after := match code with Some 0%Z => analyse demangle w target file (rlib, ll) | Some code => iret code | None => iret 1%Z end).
        exists text, code, echo, rlib, ll, after. split; [reflexivity|]. split; [exact R|]. split; [reflexivity|]. split; [reflexivity|]. split.
        { change (e :: echo ++ fst after) with ([e] ++ echo ++ fst after). rewrite !printed_app, Q. reflexivity. }
        subst after. destruct code as [[|c|c]|]; [left; split; [reflexivity | apply analyse_shape] | | |]; right; (split; [discriminate | split; reflexivity]).
      * left. destruct (ibind_stop echo o (fun paths => match code with Some 0%Z => analyse demangle w target file paths | Some code => iret code | None => iret 1%Z end) S) as [-> K].
        split; [exact Q | exact K].
    + left. destruct (ibind_stop [] (w_cargo w command) (fun child => do* paths := read_stderr (w_utf8 w) (buf_lines (fst child)) None None in
        match snd child with Some 0%Z => analyse demangle w target file paths | Some code => iret code | None => iret 1%Z end) S) as [K1 K2]. unfold lift. rewrite K1. split; [reflexivity | exact K2].
Qed.
Lemma read_touches utf8 lines : forall r l, touched (fst (read_stderr utf8 lines r l)) = [].
Proof.
  induction lines as [|x lines IH]; intros r l; cbn [read_stderr]; [reflexivity|]. destruct (negb (utf8 x)); [reflexivity|].
  destruct (starts_with rlib_marker x); [apply IH|]. destruct (starts_with ll_marker x); [apply IH|]. rewrite ibind_say. cbn [fst]. exact (IH r l).
Qed.
Lemma build_touches exe command : touched (fst (build_and_analyse demangle w target file exe command)) = [].
Proof.
  unfold build_and_analyse. rewrite ibind_say. cbn [fst]. set (e := ECmd _ _ _). change (e :: ?x) with ([e] ++ x). rewrite touched_app. cbn [touched select e]. cbn [app].
  destruct (w_cargo w command) as [[text code]| | |]; try reflexivity. rewrite ibind_ret. cbn [fst snd]. pose proof (read_touches (w_utf8 w) (buf_lines text) None None) as Q.
  destruct (read_stderr (w_utf8 w) (buf_lines text) None None) as [echo o]. cbn [fst] in Q. destruct o as [[rlib ll]| | |]; try exact Q. rewrite ibind_go. cbn [fst].
  rewrite touched_app, Q. cbn [app]. destruct code as [[|z|z]|]; try reflexivity. destruct (analyse_shape rlib ll) as [[ms [-> _]]|[r [l [p [text' [out [f [_ [_ [_ [_ [_ [-> _]]]]]]]]]]]]].
  - apply logs_silent.
  - rewrite touched_app. destruct (logs_silent (fst (report_log demangle (w_orders w) (a_start (w_args w)) p))) as [_ [_ [-> _]]]. reflexivity.
Qed.
End Run.

Lemma oeqb_some a b : oeqb a (Some b) = true <-> a = Some b.
Proof. destruct a as [x|]; cbn; [|split; discriminate]. split; [intros E; apply str_eqb_eq in E; now subst | intros E; injection E as ->; apply str_eqb_refl]. Qed.
Lemma accepted_spec w : negb (oeqb (w_hash w) (Some supported_hash)) && negb (oeqb (w_override w) (Some unsupported_value)) = false <-> accepted w.
Proof.
  unfold accepted. change (lit "2b603f95a48f10f931a61dd208fe3e5ffd64e491") with supported_hash. change (lit "I won't open issues about unsupported toolchains") with unsupported_value.
  rewrite <- !oeqb_some. destruct (oeqb (w_hash w) (Some supported_hash)), (oeqb (w_override w) (Some unsupported_value)); cbn; intuition discriminate.
Qed.

Lemma target_of_eq w config : oget (oor config (a_target (w_args w))) (w_host w) = target_of w config.
Proof. unfold target_of, oget, oor. destruct config; [reflexivity|]. destruct (a_target (w_args w)); reflexivity. Qed.
Lemma ask_spec w target : (exists stdout, w_cfg w target = Ret stdout /\ w_utf8 w stdout = true /\ ask_cfg w target = Ret (buf_lines stdout)) \/
  (stops (ask_cfg w target) /\ forall stdout, w_cfg w target = Ret stdout -> w_utf8 w stdout = true -> False).
Proof.
  unfold ask_cfg. destruct (w_cfg w target) as [s| | |]; cbn [bind]; [|right; split; [intros z; discriminate | intros s H; discriminate H]..].
  destruct (w_utf8 w s) eqn:U; [left; now exists s|]. right. split; [intros z; discriminate|]. intros s' E. injection E as <-. congruence.
Qed.
Definition cfg_command (target : str) : str * list str := (lit "rustc", [lit "--print=cfg"; lit "--target"; target]).
Definition touch_list (r : option str) : list str := match r with Some f => [f] | None => [] end.
(** What a run of the tool by a user does. *)
Definition run_shape (demangle : str -> str) (w : world) (t : io Z) : Prop :=
  (commands (fst t) = [] /\ printed (fst t) = [] /\ (touched (fst t) = [] /\ messages (fst t) = []) /\ stops (snd t)) \/
  exists file config, accepted w /\ pick_file (w_args w) = Ret file /\ w_project w = Ret config /\
    ((commands (fst t) = [cfg_command (target_of w config)] /\ printed (fst t) = [] /\ (touched (fst t) = [] /\ messages (fst t) = []) /\ stops (snd t)) \/
     exists cfg r pre t' exe, w_cfg w (target_of w config) = Ret cfg /\ w_utf8 w cfg = true /\ touches w r /\ w_exe w = Ret exe /\
       fst t = pre ++ fst t' /\ snd t = snd t' /\ commands pre = [cfg_command (target_of w config)] /\ touched pre = touch_list r /\
       printed pre = [] /\ (errors pre = [] /\ messages pre = []) /\
       t' = build_and_analyse demangle w (target_of w config) file exe (cargo_args (w_args w) file (no_std (buf_lines cfg)))).
Lemma run_shaped demangle w : w_wrapper w = false -> run_shape demangle w (run demangle w).
Proof.
  intros U. unfold run. rewrite U. destruct (outcome_dec (w_meta w)) as [[u ->]|S].
  2:{ left. unfold lift. match goal with |- context [ibind ([], w_meta w) ?f] => destruct (ibind_stop [] _ f S) as [K1 K2] end. rewrite K1. repeat (split; [first [reflexivity | split; reflexivity]|]). exact K2. }
  rewrite ibind_ret. destruct (negb (oeqb (w_hash w) (Some supported_hash)) && negb (oeqb (w_override w) (Some unsupported_value))) eqn:A.
  { left. repeat (split; [first [reflexivity | split; reflexivity]|]). intros z. discriminate. }
  apply accepted_spec in A. cbv zeta. destruct (outcome_dec (pick_file (w_args w))) as [[file Ef]|S].
  2:{ left. unfold lift. match goal with |- context [ibind ([], pick_file (w_args w)) ?f] => destruct (ibind_stop [] _ f S) as [K1 K2] end. rewrite K1. repeat (split; [first [reflexivity | split; reflexivity]|]). exact K2. }
  rewrite Ef, ibind_ret. destruct (outcome_dec (w_project w)) as [[config Ec]|S].
  2:{ left. unfold lift. match goal with |- context [ibind ([], w_project w) ?f] => destruct (ibind_stop [] _ f S) as [K1 K2] end. rewrite K1. repeat (split; [first [reflexivity | split; reflexivity]|]). exact K2. }
  rewrite Ec, ibind_ret. right. exists file, config. split; [exact A|]. split; [exact Ef|]. split; [exact Ec|]. rewrite target_of_eq. rewrite ibind_say. cbn [fst snd].
  set (c := ECmd (lit "rustc") [] _).
  destruct (ask_spec w (target_of w config)) as [[cfg [Eg [Eu Ea]]]|[S _]].
  2:{ left. unfold lift. match goal with |- context [ibind ([], ask_cfg w (target_of w config)) ?f] => destruct (ibind_stop [] _ f S) as [K1 K2] end. rewrite K1. repeat (split; [first [reflexivity | split; reflexivity]|]). exact K2. }
  rewrite Ea, ibind_ret. destruct (outcome_dec (w_exe w)) as [[exe Ee]|S].
  2:{ left. unfold lift. match goal with |- context [ibind ([], w_exe w) ?f] => destruct (ibind_stop [] _ f S) as [K1 K2] end. rewrite K1. repeat (split; [first [reflexivity | split; reflexivity]|]). exact K2. }
  rewrite Ee, ibind_ret. destruct (touch_spec w) as [[r [Tr Et]]|[S1 S2]].
  2:{ left. destruct (touch w) as [tl to]. cbn [fst snd] in S1, S2. subst tl. match goal with |- context [ibind ([], to) ?f] => destruct (ibind_stop [] _ f S2) as [K1 K2] end. rewrite K1. repeat (split; [first [reflexivity | split; reflexivity]|]). exact K2. }
  rewrite Et, ibind_go. cbn [fst snd]. right. set (command := cargo_args (w_args w) file (no_std (buf_lines cfg))).
  exists cfg, r. set (te := match r with Some f => [ETouch f] | None => [] end).
  assert (T : touched te = touch_list r /\ commands te = [] /\ printed te = [] /\ errors te = [] /\ messages te = []) by (destruct r; repeat split). destruct T as [T1 [T2 [T3 [T4 T5]]]].
  destruct (a_verbose (w_args w)).
  - rewrite ibind_say. cbn [fst snd]. exists (c :: te ++ [EVerbose (lit "cargo") command]), (build_and_analyse demangle w (target_of w config) file exe command), exe.
    split; [exact Eg|]. split; [exact Eu|]. split; [exact Tr|]. split; [first [exact Ee | reflexivity]|]. split; [cbn; now rewrite <- app_assoc|]. split; [reflexivity|].
    change (c :: te ++ ?x) with ([c] ++ te ++ x). rewrite !commands_app, !touched_app, !printed_app, !errors_app, !messages_app, T1, T2, T3, T4, T5.
    split; [reflexivity|]. split; [cbn; apply app_nil_r|]. split; [reflexivity|]. split; [split; reflexivity|]. reflexivity.
  - rewrite ibind_iret. exists (c :: te), (build_and_analyse demangle w (target_of w config) file exe command), exe.
    split; [exact Eg|]. split; [exact Eu|]. split; [exact Tr|]. split; [first [exact Ee | reflexivity]|]. split; [reflexivity|]. split; [reflexivity|].
    change (c :: te) with ([c] ++ te). rewrite !commands_app, !touched_app, !printed_app, !errors_app, !messages_app, T1, T2, T3, T4, T5.
    split; [reflexivity|]. split; [reflexivity|]. split; [reflexivity|]. split; [split; reflexivity|]. reflexivity.
Qed.
