(** What the rustc wrapper says when it does not run rustc: proofs. *)
From Verif Require Import M_base M_wrapper M_driver S_driver S_wrapper L_base L_driver1.
Local Open Scope string_scope.
Local Open Scope list_scope.

Lemma lacking_dangling t : dangling t <-> exists m, lacking t m.
Proof.
  split.
  - intros [a I|r|r]; eexists; [apply la_value; exact I | apply la_extra1 | apply la_extra2].
  - intros [m [a I|r|r]]; [apply da_value; exact I | apply da_extra1 | apply da_extra2].
Qed.
Lemma lacking_says t m st : lacking t m -> parse_loop t st = Fail m.
Proof. intros [a I|r|r]; [|reflexivity|reflexivity]. cbn [map In] in I. destruct I as [<-|[<-|[<-|[<-|[]]]]]; reflexivity. Qed.
Lemma wrap_main demangle w : w_wrapper w = true -> Forall (fun a => w_utf8 w a = true) (w_argv w) -> run demangle w = wrap (w_argv w) (w_rustc w).
Proof. intros W U. unfold run. rewrite W. apply wrapper_wrap. exact U. Qed.
Theorem reason demangle w exe rustc args : w_wrapper w = true -> w_argv w = exe :: rustc :: args -> Forall (fun a => w_utf8 w a = true) (w_argv w) ->
  exists opts ws tail, Forall2 written opts ws /\ args = concat ws ++ tail /\
  ((exists m, lacking tail m /\ main demangle w = ([EErr (lit "error: " ++ m)], 1%Z)) \/
   (tail = [] /\ latest crate_of opts None /\ main demangle w = ([EErr (lit "error: missing `--crate-name` argument")], 1%Z)) \/
   (tail = [] /\ latest crate_of opts (Some (lit "compiler_builtins")) /\ latest out_of opts None /\
      exists t, commands t = [] /\ printed t = [] /\ main demangle w = (t ++ [EErr (lit "error: missing `--out-dir` argument")], 1%Z)) \/
   (tail = [] /\ exists all, commands (fst (main demangle w)) = [(rustc, all)] /\
      match w_rustc w rustc all with
      | Ret code => snd (main demangle w) = match code with Some c => c | None => (-1)%Z end
      | Fail m => snd (main demangle w) = 1%Z /\ exists t, fst (main demangle w) = t ++ [EErr (lit "error: " ++ m)]
      | _ => snd (main demangle w) = 101%Z
      end)).
Proof.
  intros W A U. destruct (every_args args) as [opts [ws [tail [F [E T]]]]]. exists opts, ws, tail. split; [exact F|]. split; [exact E|].
  unfold main. rewrite (wrap_main demangle w W U), A. destruct T as [->|D].
  2:{ left. apply lacking_dangling in D. destruct D as [m L]. exists m. split; [exact L|]. unfold wrap. cbn [skipn]. unfold parse_args. rewrite E, (loop_written opts ws tail _ F), (lacking_says _ _ _ L). reflexivity. }
  right. rewrite app_nil_r in E. pose proof (last_of_latest crate_of opts) as Lc. pose proof (last_of_latest out_of opts) as Lo.
  pose proof (parse_written opts ws F) as P. rewrite <- E in P. destruct (last_of crate_of opts None) as [c|].
  2:{ left. split; [reflexivity|]. split; [exact Lc|]. unfold wrap. cbn [skipn]. rewrite P. reflexivity. }
  right. assert (C : c = compiler_builtins /\ last_of out_of opts None = None \/ can_run (mkRustcArgs (match last_of extra_of opts None with Some e => e | None => [] end) c (last_of out_of opts None) (select extern_of opts))).
  { destruct (last_of out_of opts None) as [o|] eqn:O; [right; intros _; discriminate|]. destruct (str_dec c compiler_builtins) as [Ec|Nc]; [left; split; [exact Ec | reflexivity] | right; intros K; destruct (Nc K)]. }
  destruct C as [[-> O]|C].
  - left. rewrite O in *. split; [reflexivity|]. split; [exact Lc|]. split; [exact Lo|]. unfold wrap. cbn [skipn]. rewrite P. exists (rlib_lines (select extern_of opts)).
    split; [apply rlib_no_commands|]. split; [apply rlib_none|]. unfold ibind, lift. cbn [fst snd app ra_externs ra_crate ra_out]. rewrite L_base.str_eqb_refl. cbn [fst snd app]. rewrite app_nil_r. reflexivity.
  - right. split; [reflexivity|]. destruct (wrap_runs exe rustc args (w_rustc w) _ P C) as [K1 [_ K3]]. set (t := wrap (exe :: rustc :: args) (w_rustc w)) in *. eexists. 
    destruct t as [t r]. cbn [fst snd] in *. split.
    + destruct r as [z|m|m|]; cbn [fst]; [exact K1 | | |]; unfold commands in *; rewrite select_app, K1; reflexivity.
    + destruct (w_rustc w rustc _) as [z|m|m|]; cbn [bind] in K3; subst r; cbn [fst snd]; [reflexivity | split; [reflexivity | exists t; reflexivity] | reflexivity | reflexivity].
Qed.
