(** Lemmas on the driver: output of the build, choice of the IR file, command line of cargo, traces. *)
From Verif Require Import M_base L_base M_names L_names M_thumb M_parse M_build M_run M_wrapper M_driver S_build S_driver L_driver1.

(** ** Lines of stderr *)
Lemma lines_from_app l : ~ In "010"%char l -> forall racc s, lines_from racc (l ++ "010"%char :: s) = strip_cr (rev l ++ racc) :: lines_from [] s.
Proof.
  induction l as [|c l IH]; intros N racc s; cbn [app lines_from rev]; [reflexivity|].
  destruct (Ascii.eqb_spec c "010") as [->|Nc]; [destruct N; now left|]. rewrite IH by (intros I; apply N; now right). now rewrite <- app_assoc.
Qed.
Lemma strip_cr_plain l : (forall r, l <> r ++ ["013"%char]) -> strip_cr (rev l ++ []) = l.
Proof.
  intros N. rewrite app_nil_r. unfold strip_cr. destruct (rev l) as [|c r] eqn:E; [apply (f_equal (@rev ascii)) in E; rewrite rev_involutive in E; now rewrite E|].
  destruct (Ascii.eqb_spec c "013") as [->|_]; [|rewrite <- E; apply rev_involutive].
  apply (f_equal (@rev ascii)) in E. rewrite rev_involutive in E. cbn in E. now destruct (N (rev r)).
Qed.
Lemma buf_lines_plain ls : Forall plain_line ls -> buf_lines (concat (map (fun l => l ++ ["010"%char]) ls)) = ls.
Proof.
  intros F. unfold buf_lines. induction F as [|l ls [N C] F IH]; [reflexivity|]. cbn [map concat]. rewrite <- app_assoc. cbn [app].
  rewrite lines_from_app by exact N. rewrite IH. f_equal. now apply strip_cr_plain.
Qed.

Lemma marker_split r : rlib_marker ++ r = lit "@CARGO_CALL_STACK:" ++ lit "compiler_builtins_rlib_path@" ++ r.
Proof. reflexivity. Qed.
Lemma ll_marker_split r : ll_marker ++ r = lit "@CARGO_CALL_STACK:" ++ lit "compiler_builtins_ll_path@" ++ r.
Proof. reflexivity. Qed.
Lemma text_no_rlib l : text_line l -> starts_with rlib_marker l = false.
Proof. intros T. apply starts_false. intros r E. rewrite marker_split in E. exact (T _ E). Qed.
Lemma text_no_ll l : text_line l -> starts_with ll_marker l = false.
Proof. intros T. apply starts_false. intros r E. rewrite ll_marker_split in E. exact (T _ E). Qed.
Lemma skipn_app_exact {A} (p r : list A) : skipn (length p) (p ++ r) = r.
Proof. now rewrite skipn_app, skipn_all, Nat.sub_diag, skipn_O. Qed.
Lemma ll_not_rlib r : starts_with rlib_marker (ll_marker ++ r) = false.
Proof. reflexivity. Qed.

Lemma read_notes utf8 ns : Forall note_ok ns -> (forall n, In n ns -> utf8 (note_line n) = true) -> forall r l,
  read_stderr utf8 (map note_line ns) r l = (map EErr (select text_of ns), Ret (last_of rlib_of ns r, last_of ll_of ns l)).
Proof.
  induction ns as [|n ns IH]; intros F U r l; [reflexivity|]. inversion F as [|? ? [P T] F']; subst. cbn [map read_stderr]. rewrite (U n) by now left. cbn [negb].
  specialize (IH F' (fun m I => U m (or_intror I))). destruct n as [line|path|path]; cbn [note_line select text_of last_of rlib_of ll_of].
  - rewrite (text_no_rlib line T), (text_no_ll line T), IH. reflexivity.
  - change (lit "@CARGO_CALL_STACK:compiler_builtins_rlib_path@") with rlib_marker. rewrite starts_with_refl, skipn_app_exact, IH. reflexivity.
  - change (lit "@CARGO_CALL_STACK:compiler_builtins_ll_path@") with ll_marker. rewrite ll_not_rlib, starts_with_refl, skipn_app_exact, IH. reflexivity.
Qed.
Lemma errors_map l : errors (map EErr l) = l.
Proof. unfold errors. induction l as [|x l IH]; [reflexivity|]. cbn. now rewrite IH. Qed.
Theorem c48_stderr utf8 ns : Forall note_ok ns -> (forall n, In n ns -> utf8 (note_line n) = true) ->
  exists rlib ll, read_stderr utf8 (buf_lines (concat (map (fun n => note_line n ++ ["010"%char]) ns))) None None =
    (map EErr (select text_of ns), Ret (rlib, ll)) /\ latest rlib_of ns rlib /\ latest ll_of ns ll.
Proof.
  intros F U. exists (last_of rlib_of ns None), (last_of ll_of ns None). split; [|split; apply last_of_latest].
  replace (map (fun n => note_line n ++ ["010"%char]) ns) with (map (fun l => l ++ ["010"%char]) (map note_line ns)) by (rewrite map_map; reflexivity).
  rewrite buf_lines_plain; [now apply read_notes|]. apply Forall_map. apply Forall_forall. intros n I. rewrite Forall_forall in F. now apply F.
Qed.

(** Any text. *)
Lemma strip_cr_last l : strip_cr (rev (l ++ ["013"%char]) ++ []) = l.
Proof. rewrite app_nil_r, rev_app_distr. cbn. apply rev_involutive. Qed.
Lemma lines_of_buf s ls : lines_of s ls -> buf_lines s = ls.
Proof.
  unfold buf_lines. intros L. induction L as [|l N F|l s ls N C L IH|l s ls N L IH].
  - reflexivity.
  - assert (X : forall racc, lines_from racc l = match rev l ++ racc with [] => [] | _ => [rev (rev l ++ racc)] end).
    { clear N. induction l as [|c l IH]; intros racc; cbn [lines_from rev app]; [now destruct racc|]. destruct (Ascii.eqb_spec c "010") as [->|Nc]; [destruct F; now left|].
      rewrite IH by (intros I; apply F; now right). now rewrite <- app_assoc. }
    rewrite X, app_nil_r, rev_involutive. destruct (rev l) eqn:E; [|reflexivity]. apply (f_equal (@rev ascii)) in E. rewrite rev_involutive in E. now destruct N.
  - rewrite lines_from_app by exact N. now rewrite IH, strip_cr_plain.
  - replace (l ++ "013"%char :: "010"%char :: s) with ((l ++ ["013"%char]) ++ "010"%char :: s) by (rewrite <- app_assoc; reflexivity).
    rewrite lines_from_app by (intros I; apply in_app_or in I; destruct I as [I|[I|[]]]; [tauto | discriminate I]). now rewrite IH, strip_cr_last.
Qed.
Lemma split_first (x : ascii) l : In x l -> exists a b, l = a ++ x :: b /\ ~ In x a.
Proof.
  induction l as [|y l IH]; intros I; [destruct I|]. destruct (ascii_dec y x) as [->|N]; [now exists [], l|]. destruct I as [I|I]; [congruence|].
  destruct (IH I) as [a [b [-> H]]]. exists (y :: a), b. split; [reflexivity|]. intros [J|J]; [congruence | tauto].
Qed.
Lemma lines_of_total s : exists ls, lines_of s ls.
Proof.
  remember (length s) as n eqn:E. assert (L : length s <= n) by lia. clear E. revert s L. induction n as [|n IH]; intros s L; [destruct s; [exists []; constructor | cbn in L; lia]|].
  destruct (in_dec ascii_dec "010"%char s) as [I|N].
  - destruct (split_first _ s I) as [a [b [-> Na]]]. rewrite app_length in L. cbn in L. destruct (IH b ltac:(lia)) as [ls H].
    destruct (rev a) as [|x r] eqn:R; apply (f_equal (@rev ascii)) in R; rewrite rev_involutive in R; cbn in R; subst a.
    + exists ([] :: ls). apply lo_lf; [exact Na | now intros [|? ?] | exact H].
    + destruct (ascii_dec x "013") as [->|Nx].
      * exists (rev r :: ls). rewrite <- app_assoc. cbn [app]. apply lo_crlf; [|exact H]. intros J. apply Na, in_or_app. now left.
      * exists ((rev r ++ [x]) :: ls). apply lo_lf; [exact Na| |exact H]. intros r' J. apply app_inj_tail in J. tauto.
  - destruct s as [|x s]; [exists []; constructor|]. exists [x :: s]. now constructor.
Qed.
Lemma says_note_total l : exists n, says_note l n.
Proof.
  destruct (starts_with rlib_marker l) eqn:A; [apply starts_with_app in A; destruct A as [r ->]; exists (NRlib r); constructor|].
  destruct (starts_with ll_marker l) eqn:B; [apply starts_with_app in B; destruct B as [r ->]; exists (NLl r); constructor|].
  exists (NText l). constructor; intros p ->; [change (lit "@CARGO_CALL_STACK:compiler_builtins_rlib_path@") with rlib_marker in A | change (lit "@CARGO_CALL_STACK:compiler_builtins_ll_path@") with ll_marker in B]; rewrite starts_with_refl in *; discriminate.
Qed.
Definition line_note (l : str) : note :=
  if starts_with rlib_marker l then NRlib (skipn (length rlib_marker) l) else if starts_with ll_marker l then NLl (skipn (length ll_marker) l) else NText l.
Lemma says_note_read l n : says_note l n -> n = line_note l.
Proof.
  intros A. unfold line_note. destruct A as [p|p|l H1 H2].
  - change (lit "@CARGO_CALL_STACK:compiler_builtins_rlib_path@") with rlib_marker. now rewrite starts_with_refl, skipn_app_exact.
  - change (lit "@CARGO_CALL_STACK:compiler_builtins_ll_path@") with ll_marker. now rewrite ll_not_rlib, starts_with_refl, skipn_app_exact.
  - now rewrite (proj2 (starts_false rlib_marker l) H1), (proj2 (starts_false ll_marker l) H2).
Qed.
Lemma says_note_unique l n n' : says_note l n -> says_note l n' -> n = n'.
Proof. intros A B. apply says_note_read in A, B. congruence. Qed.
Theorem c48_lines s : exists ls ns, lines_of s ls /\ Forall2 says_note ls ns /\ forall ls' ns', lines_of s ls' -> Forall2 says_note ls' ns' -> ls' = ls /\ ns' = ns.
Proof.
  destruct (lines_of_total s) as [ls L]. assert (N : exists ns, Forall2 says_note ls ns).
  { clear L. induction ls as [|l ls [ns IH]]; [now exists []|]. destruct (says_note_total l) as [n H]. exists (n :: ns). now constructor. }
  destruct N as [ns N]. exists ls, ns. split; [exact L|]. split; [exact N|]. intros ls' ns' L' N'. assert (Q : ls' = ls) by (apply lines_of_buf in L, L'; congruence). clear L L'. subst ls'. split; [reflexivity|].
  revert ns' N'. induction N as [|l n ls ns H N IH]; intros ns' N'; inversion N' as [|? n' ? ns2 H' N2]; subst; [reflexivity|]. f_equal; [now apply (says_note_unique l) | now apply IH].
Qed.
Lemma read_any utf8 ls ns : Forall2 says_note ls ns -> forall r l,
  (Forall (fun x => utf8 x = true) ls -> read_stderr utf8 ls r l = (map EErr (select text_of ns), Ret (last_of rlib_of ns r, last_of ll_of ns l))) /\
  (forall a x b, ls = a ++ x :: b -> Forall (fun x => utf8 x = true) a -> utf8 x = false ->
     read_stderr utf8 ls r l = (map EErr (select text_of (firstn (length a) ns)), Fail (lit "stream did not contain valid UTF-8"))).
Proof.
  intros F. induction F as [|y n ls ns H F IH]; intros r l; [split; [reflexivity | now intros [|? ?] ? ? [=]]|].
  assert (K : utf8 y = true -> read_stderr utf8 (y :: ls) r l =
    let r' := last_of rlib_of [n] r in let l' := last_of ll_of [n] l in (map EErr (select text_of [n]) ++ fst (read_stderr utf8 ls r' l'), snd (read_stderr utf8 ls r' l'))).
  { intros U. cbn [read_stderr]. rewrite U. cbn [negb]. destruct H as [p|p|y H1 H2]; cbn [last_of rlib_of ll_of select text_of map app].
    - change (lit "@CARGO_CALL_STACK:compiler_builtins_rlib_path@") with rlib_marker. rewrite starts_with_refl, skipn_app_exact. now destruct (read_stderr utf8 ls _ _).
    - change (lit "@CARGO_CALL_STACK:compiler_builtins_ll_path@") with ll_marker. rewrite ll_not_rlib, starts_with_refl, skipn_app_exact. now destruct (read_stderr utf8 ls _ _).
    - rewrite (proj2 (starts_false rlib_marker y) H1), (proj2 (starts_false ll_marker y) H2). unfold ibind, say. cbn [fst snd]. now destruct (read_stderr utf8 ls r l). }
  split.
  - intros U. inversion U as [|? ? U1 U2]; subst. rewrite (K U1). cbv zeta. rewrite (proj1 (IH _ _) U2). cbn [fst snd]. destruct n; reflexivity.
  - intros a x b E U V. destruct a as [|z a]; cbn [app] in E; injection E as <- E.
    + cbn [read_stderr length firstn]. rewrite V. reflexivity.
    + inversion U as [|? ? U1 U2]; subst. rewrite (K U1). cbv zeta. rewrite (proj2 (IH _ _) a x b eq_refl U2 V). cbn [fst snd length firstn]. destruct n; reflexivity.
Qed.

Lemma rlib_notes_opts opts : rlib_notes (select extern_of opts) = select builtins_rlib opts.
Proof.
  unfold rlib_notes. induction opts as [|o opts IH]; [reflexivity|]. destruct o as [n p| | | |]; cbn [select extern_of builtins_rlib]; try exact IH.
  rewrite IH. cbn [ex_name ex_path]. change compiler_builtins with (lit "compiler_builtins"). destruct p as [p|], (str_eqb n (lit "compiler_builtins")); reflexivity.
Qed.
Theorem c48_reports utf8 exe rustc opts ws f c d e : Forall (fun a => utf8 a = true) (exe :: rustc :: concat ws) -> Forall2 written opts ws -> latest crate_of opts (Some c) -> latest out_of opts (Some d) -> latest extra_of opts e ->
  errors (fst (wrapper utf8 (exe :: rustc :: concat ws) f)) =
  map note_line (select builtins_rlib opts ++
                 (if str_eqb c (lit "compiler_builtins") then [NLl (d ++ lit "/compiler_builtins" ++ match e with Some e => e | None => [] end ++ lit ".ll")] else [])).
Proof.
  intros U F C O Ex. rewrite (wrapper_wrap utf8 _ f U). set (a := mkRustcArgs (match e with Some e => e | None => [] end) c (Some d) (select extern_of opts)).
  assert (E : parse_args (concat ws) = Ret a). { apply (proj1 (c47_read opts ws F)). cbn. split; [exact C|]. split; [now exists e|]. split; [exact O | reflexivity]. }
  assert (R : can_run a) by (intros _; cbn; discriminate). destruct (wrap_runs exe rustc (concat ws) f a E R) as [_ [K _]]. rewrite K. unfold reports, a. cbn [ra_externs ra_crate ra_out ra_extra].
  rewrite rlib_notes_opts. reflexivity.
Qed.

(** ** The IR file *)
Lemma rsplit_dot a b : ~ In "."%char b -> rsplit_once (lit ".") (a ++ "."%char :: b) = Some (a, b).
Proof.
  intros N. induction a as [|c a IH].
  - cbn [app]. assert (K : rsplit_once (lit ".") b = None).
    { apply rsplit_once_none; [discriminate|]. intros x y E. apply N. rewrite E. apply in_or_app. right. now left. }
    cbn [rsplit_once]. rewrite K. reflexivity.
  - cbn [app rsplit_once]. rewrite IH. reflexivity.
Qed.
Lemma rsplit_dot_inv s a b : rsplit_once (lit ".") s = Some (a, b) -> s = a ++ "."%char :: b.
Proof.
  revert a. induction s as [|c s IH]; intros a; [discriminate|]. cbn [rsplit_once]. destruct (rsplit_once (lit ".") s) as [[x y]|].
  - intros E. injection E as <- <-. cbn. f_equal. now apply IH.
  - destruct (starts_with (lit ".") (c :: s)) eqn:S; [|discriminate]. intros E. injection E as <- <-. apply starts_with_app in S. destruct S as [r S].
    change (lit "." ++ r) with ("."%char :: r) in S. injection S as -> ->. reflexivity.
Qed.
Lemma stem_ext_ll name stem : stem_ext name = Some (stem, lit "ll") <-> stem <> [] /\ name = stem ++ lit ".ll".
Proof.
  unfold stem_ext. split.
  - destruct (rsplit_once (lit ".") name) as [[[|c b] a]|] eqn:E; try discriminate. intros K. injection K as <- ->. split; [discriminate | now apply rsplit_dot_inv in E].
  - intros [N ->]. change (stem ++ lit ".ll") with (stem ++ "."%char :: lit "ll"). rewrite rsplit_dot; [destruct stem; [now destruct N | reflexivity]|]. cbn. intuition discriminate.
Qed.
Lemma ir_file_stem crate name : ir_file crate name <-> exists stem, stem_ext name = Some (stem, lit "ll") /\ starts_with (crate ++ lit "-") stem = true.
Proof.
  split.
  - intros [h ->]. exists (crate ++ lit "-" ++ h). split; [|rewrite app_assoc; apply starts_with_refl]. apply stem_ext_ll. split; [destruct crate; discriminate|]. now rewrite <- !app_assoc.
  - intros [stem [S P]]. apply stem_ext_ll in S. destruct S as [_ ->]. apply starts_with_app in P. destruct P as [h ->]. exists h. now rewrite <- !app_assoc.
Qed.
Lemma ir_file_other crate other name : ~ In "-"%char crate -> ~ In "-"%char other -> ir_file crate name -> ir_file other name -> crate = other.
Proof.
  intros Nc No [h E1] [k E2]. rewrite E1 in E2. clear E1 name. revert other No E2. induction crate as [|c crate IH]; intros [|o other] No E; cbn in E.
  - reflexivity.
  - injection E as <- _. destruct No. now left.
  - injection E as -> _. destruct Nc. now left.
  - injection E as <- E. f_equal. apply IH; [intros I; apply Nc; now right | intros I; apply No; now right | exact E].
Qed.
Lemma crate_no_dash file : ~ In "-"%char (crate_name file).
Proof. unfold crate_name. intros I. apply in_map_iff in I. destruct I as [x [E _]]. destruct (Ascii.eqb_spec x "-") as [K|N]; [discriminate E | now apply N]. Qed.

Definition inv (crate : str) (es : list entry) (best : option (str * N)) : Prop :=
  match best with
  | Some (n, t) => chosen_file crate es n t
  | None => forall x, In x es -> ~ ir_file crate (en_name x)
  end.
Lemma inv_skip crate es best e : ~ ir_file crate (en_name e) -> inv crate es best -> inv crate (es ++ [e]) best.
Proof.
  intros N. destruct best as [[n t]|]; cbn.
  - intros [a [x [b [-> [En [Et [I [K1 K2]]]]]]]]. exists a, x, (b ++ [e]). split; [now rewrite <- app_assoc|]. split; [exact En|]. split; [exact Et|]. split; [exact I|]. split; [exact K1|].
    intros y k Iy F. apply in_app_or in Iy. destruct Iy as [Iy|[<-|[]]]; [now apply (K2 y k Iy) | now destruct N].
  - intros K x I. apply in_app_or in I. destruct I as [I|[<-|[]]]; [now apply K | exact N].
Qed.
Lemma pick_inv crate es : forall done best r, inv crate done best -> pick_ll (crate ++ lit "-") (map Ret es) best = Ret r -> inv crate (done ++ es) r.
Proof.
  induction es as [|e es IH]; intros done best r V E; [cbn in E; injection E as <-; now rewrite app_nil_r|]. replace (done ++ e :: es) with ((done ++ [e]) ++ es) by now rewrite <- app_assoc.
  cbn [map pick_ll bind] in E.
  assert (Skip : ~ ir_file crate (en_name e) -> pick_ll (crate ++ lit "-") (map Ret es) best = Ret r -> inv crate ((done ++ [e]) ++ es) r).
  { intros N E'. apply (IH (done ++ [e]) best r); [now apply inv_skip | exact E']. }
  destruct (stem_ext (en_name e)) as [[stem ext]|] eqn:S.
  2:{ apply Skip; [|exact E]. intros I. apply ir_file_stem in I. destruct I as [st [K _]]. congruence. }
  destruct (str_eqb_spec ext (lit "ll")) as [->|Nx].
  2:{ apply Skip; [|exact E]. intros I. apply ir_file_stem in I. destruct I as [st [K _]]. congruence. }
  destruct (en_utf8 e); cbn [negb] in E; [|discriminate]. destruct (starts_with (crate ++ lit "-") stem) eqn:P.
  2:{ apply Skip; [|exact E]. intros I. apply ir_file_stem in I. destruct I as [st [K P']]. rewrite S in K. injection K as <-. congruence. }
  assert (I : ir_file crate (en_name e)) by (apply ir_file_stem; now exists stem). destruct (en_time e) as [t| | |] eqn:T; try discriminate E. cbn [bind] in E.
  assert (New : (forall x k, In x done -> ir_file crate (en_name x) -> en_time x = Ret k -> (k < t)%N) -> pick_ll (crate ++ lit "-") (map Ret es) (Some (en_name e, t)) = Ret r -> inv crate ((done ++ [e]) ++ es) r).
  { intros K E'. refine (IH (done ++ [e]) _ r _ E'). exists done, e, []. split; [reflexivity|]. split; [reflexivity|]. split; [exact T|]. split; [exact I|]. split; [exact K|]. intros x k []. }
  destruct best as [[n m]|].
  - destruct V as [a [x [b [-> [En [Et [Ix [K1 K2]]]]]]]]. destruct (N.ltb_spec m t) as [L|L].
    + apply New; [|exact E]. intros y k Iy Fy Ty. apply in_app_or in Iy. destruct Iy as [Iy|[<-|Iy]].
      * specialize (K1 y k Iy Fy Ty). lia.
      * rewrite Et in Ty. injection Ty as <-. exact L.
      * specialize (K2 y k Iy Fy Ty). lia.
    + refine (IH (_ ++ [e]) _ r _ E). exists a, x, (b ++ [e]). split; [now rewrite <- app_assoc|]. split; [exact En|]. split; [exact Et|]. split; [exact Ix|]. split; [exact K1|].
      intros y k Iy Fy Ty. apply in_app_or in Iy. destruct Iy as [Iy|[<-|[]]]; [now apply (K2 y k) | rewrite T in Ty; injection Ty as <-; exact L].
  - apply New; [|exact E]. intros x k Ix Fx. now destruct (V x Ix).
Qed.
Lemma pick_total crate es : (forall e, In e es -> en_utf8 e = true /\ exists t, en_time e = Ret t) -> forall best, exists r, pick_ll (crate ++ lit "-") (map Ret es) best = Ret r.
Proof.
  induction es as [|e es IH]; intros H best; [now eexists|]. cbn [map pick_ll bind]. destruct (H e (or_introl eq_refl)) as [U [t T]]. specialize (IH (fun x I => H x (or_intror I))).
  destruct (stem_ext (en_name e)) as [[stem ext]|]; [|apply IH]. destruct (str_eqb ext (lit "ll")); [|apply IH]. rewrite U. cbn [negb]. destruct (starts_with _ stem); [|apply IH]. rewrite T. cbn [bind].
  destruct best as [[n m]|]; [destruct (m <? t)%N|]; apply IH.
Qed.
Theorem c49_newest file es r : pick_ll (replace_char "-" "_" file ++ lit "-") (map Ret es) None = Ret r ->
  match r with
  | Some (name, t) => chosen_file (crate_name file) es name t
  | None => forall e, In e es -> ~ ir_file (crate_name file) (en_name e)
  end.
Proof. intros E. assert (V0 : inv (crate_name file) [] None) by (intros x []). exact (pick_inv (crate_name file) es [] None r V0 E). Qed.
Theorem c49_never_other file es name t other : pick_ll (replace_char "-" "_" file ++ lit "-") (map Ret es) None = Ret (Some (name, t)) ->
  ~ In "-"%char other -> other <> crate_name file -> ~ ir_file other name.
Proof.
  intros E N D I. apply c49_newest in E. destruct E as [a [e [b [_ [_ [_ [F _]]]]]]]. apply D. symmetry. exact (ir_file_other _ _ _ (crate_no_dash file) N F I).
Qed.
Theorem c49_finds file es : (forall e, In e es -> en_utf8 e = true /\ exists t, en_time e = Ret t) -> (exists e, In e es /\ ir_file (crate_name file) (en_name e)) ->
  exists name t, pick_ll (replace_char "-" "_" file ++ lit "-") (map Ret es) None = Ret (Some (name, t)).
Proof.
  intros H [e [I F]]. destruct (pick_total (crate_name file) es H None) as [r E]. pose proof (c49_newest file es r E) as K.
  destruct r as [[n t]|]; [exists n, t; exact E|]. now destruct (K e I).
Qed.

(** ** The command line of cargo *)
Ltac eqs := repeat match goal with |- context [str_eqb (lit ?a) (lit ?b)] => let e := eval vm_compute in (str_eqb (lit a) (lit b)) in change (str_eqb (lit a) (lit b)) with e end;
  repeat match goal with |- context [strip_prefix (lit ?a) (lit ?b)] => let e := eval vm_compute in (strip_prefix (lit a) (lit b)) in change (strip_prefix (lit a) (lit b)) with e end; cbv iota beta.
Lemma read_tail (b : bool) q : rq_release q = false -> rq_build_std q = None -> rq_rustc q = [] ->
  read_cargo ([lit "--release"] ++ [if b then lit "-Zbuild-std=core,alloc,compiler_builtins" else lit "-Zbuild-std";
     lit "--color=always"; lit "--"; lit "--emit=llvm-ir,obj"; lit "-C"; lit "embed-bitcode=yes"; lit "-C"; lit "lto=fat"]) q =
  Some (mkRequest (rq_target q) (rq_features q) (rq_all_features q) (rq_example q) (rq_bin q) true (Some (if b then lit "core,alloc,compiler_builtins" else []))
     (map lit ["--emit=llvm-ir,obj"; "-C"; "embed-bitcode=yes"; "-C"; "lto=fat"]%string)).
Proof. intros _ _ _. destruct q, b; reflexivity. Qed.
Lemma read_value k v rest q : In k ["--target"; "--features"; "--example"; "--bin"]%string -> dashed v = false ->
  read_cargo (lit k :: v :: rest) q =
    (if String.eqb k "--target" then match rq_target q with Some _ => None | None => read_cargo rest (mkRequest (Some v) (rq_features q) (rq_all_features q) (rq_example q) (rq_bin q) (rq_release q) (rq_build_std q) []) end
     else if String.eqb k "--features" then match rq_features q with Some _ => None | None => read_cargo rest (mkRequest (rq_target q) (Some v) (rq_all_features q) (rq_example q) (rq_bin q) (rq_release q) (rq_build_std q) []) end
     else if String.eqb k "--example" then match rq_example q with Some _ => None | None => read_cargo rest (mkRequest (rq_target q) (rq_features q) (rq_all_features q) (Some v) (rq_bin q) (rq_release q) (rq_build_std q) []) end
     else match rq_bin q with Some _ => None | None => read_cargo rest (mkRequest (rq_target q) (rq_features q) (rq_all_features q) (rq_example q) (Some v) (rq_release q) (rq_build_std q) []) end).
Proof.
  intros I D. cbn [In] in I. destruct I as [<-|[<-|[<-|[<-|[]]]]]; cbn [read_cargo]; eqs; rewrite D; reflexivity.
Qed.
Lemma refuse_value k v rest q : In k ["--target"; "--features"; "--example"; "--bin"]%string -> dashed v = true -> read_cargo (lit k :: v :: rest) q = None.
Proof. intros I D. cbn [In] in I. destruct I as [<-|[<-|[<-|[<-|[]]]]]; cbn [read_cargo]; eqs; rewrite D; reflexivity. Qed.
Lemma cargo_refuses a file (b : bool) : pick_file a = Ret file -> ~ plain_args a -> read_cargo (tl (cargo_args a file b)) request0 = None.
Proof.
  intros E N. unfold cargo_args. unfold pick_file in E. cbn [tl app].
  assert (X : (a_example a = Some file /\ a_bin a = None) \/ (a_example a = None /\ a_bin a = Some file)).
  { destruct (a_example a) as [x|], (a_bin a) as [y|]; try discriminate; injection E as <-; [now left | now right]. }
  assert (Z : forall q rest, dashed file = true -> read_cargo (match a_example a with Some _ => [lit "--example"; file] | None => [] end ++ match a_bin a with Some _ => [lit "--bin"; file] | None => [] end ++ rest) q = None).
  { intros q rest P. destruct X as [[-> ->]|[-> ->]]; cbn [app]; [apply (refuse_value "--example") | apply (refuse_value "--bin")]; try exact P; cbn; tauto. }
  assert (Y : forall q rest, rq_features q = None -> (plain_value (a_target a)) -> read_cargo ((if a_all_features a then [lit "--all-features"] else match a_features a with Some f => [lit "--features"; f] | None => [] end) ++
    match a_example a with Some _ => [lit "--example"; file] | None => [] end ++ match a_bin a with Some _ => [lit "--bin"; file] | None => [] end ++ rest) q = None).
  { intros q rest Q T. assert (W : (a_all_features a = false /\ exists v, a_features a = Some v /\ dashed v = true) \/ (dashed file = true)).
    { destruct (dashed file) eqn:D; [now right|]. left. destruct (a_all_features a) eqn:A; [destruct N; split; [exact T|]; split; [now rewrite A|] |].
      - destruct X as [[-> ->]|[-> ->]]; now split.
      - split; [reflexivity|]. destruct (a_features a) as [v|] eqn:F; [exists v; split; [reflexivity|] | ].
        + destruct (dashed v) eqn:V; [reflexivity|]. destruct N. split; [exact T|]. split; [now rewrite F|]. destruct X as [[-> ->]|[-> ->]]; now split.
        + destruct N. split; [exact T|]. split; [now rewrite F|]. destruct X as [[-> ->]|[-> ->]]; now split. }
    destruct W as [[-> [v [-> V]]]|D]; [cbn [app]; apply (refuse_value "--features"); [cbn; tauto | exact V]|].
    destruct (a_all_features a); [cbn [app read_cargo]; eqs; now apply Z|]. destruct (a_features a) as [v|]; [|cbn [app]; now apply Z].
    destruct (dashed v) eqn:V; [cbn [app]; apply (refuse_value "--features"); [cbn; tauto | exact V]|]. cbn [app].
    rewrite (read_value "--features") by (try exact V; cbn; tauto). cbn [String.eqb Ascii.eqb Bool.eqb]. rewrite Q. now apply Z. }
  destruct (a_target a) as [v|] eqn:T; [|cbn [app]; now apply Y]. destruct (dashed v) eqn:V; [cbn [app]; apply (refuse_value "--target"); [cbn; tauto | exact V]|].
  cbn [app]. rewrite (read_value "--target") by (try exact V; cbn; tauto). cbn [String.eqb Ascii.eqb Bool.eqb rq_target request0]. now apply Y.
Qed.
Lemma cargo_reads a file (b : bool) : pick_file a = Ret file -> plain_args a ->
  exists rest, cargo_args a file b = lit "rustc" :: rest /\
    read_cargo rest request0 = Some (requested a (if b then lit "core,alloc,compiler_builtins" else [])).
Proof.
  intros E [Pt [Pf [Pe Pb]]]. unfold cargo_args, requested. eexists. split; [reflexivity|]. unfold pick_file in E.
  assert (X : (a_example a = Some file /\ a_bin a = None) \/ (a_example a = None /\ a_bin a = Some file)).
  { destruct (a_example a) as [x|], (a_bin a) as [y|]; try discriminate; injection E as <-; [now left | now right]. }
  assert (D : dashed file = false). { destruct X as [[Xe _]|[_ Xb]]; [rewrite Xe in Pe; exact Pe | rewrite Xb in Pb; exact Pb]. }
  unfold request0.
  destruct (a_target a) as [t|]; [cbn [app]; rewrite (read_value "--target") by (try exact Pt; cbn; tauto); cbn -[read_cargo lit]|cbn [app]];
  (destruct (a_all_features a);
   [ cbn [app]; cbn [read_cargo]; eqs; cbn -[read_cargo lit]
   | specialize (Pf eq_refl); destruct (a_features a) as [fs|]; [cbn [app]; rewrite (read_value "--features") by (try exact Pf; cbn; tauto); cbn -[read_cargo lit]|cbn [app]]]);
  (destruct X as [[-> ->]|[-> ->]]; cbn [app];
   [rewrite (read_value "--example") by (try exact D; cbn; tauto)|rewrite (read_value "--bin") by (try exact D; cbn; tauto)]);
  cbn -[read_cargo lit];
  match goal with |- read_cargo ?l ?q = _ => exact (read_tail b q eq_refl eq_refl eq_refl) end.
Qed.
