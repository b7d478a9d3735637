(** Examples for the end of every run. *)
From Verif Require Import M_base M_names M_render M_ty M_parse M_build M_run M_wrapper M_driver S_build S_driver S_finite X_build X_driver L_finite.
Local Open Scope string_scope.
Local Open Scope list_scope.

(** The world of the examples answers. *)
Lemma full_answers a config hash override stderr code sources walk fault : answers (full_world a config hash override stderr code sources walk fault).
Proof.
  constructor.
  - intros p l C. discriminate C.
  - intros C. discriminate C.
  - intros C. discriminate C.
  - intros t C. discriminate C.
  - intros C. discriminate C.
  - intros f C. unfold full_world, w_set_times in C. destruct (existsb (str_eqb f) sources); discriminate C.
  - intros d e I. unfold full_world, w_walk in I. apply in_map_iff in I. destruct I as [x [<- _]]. discriminate.
  - intros l C. discriminate C.
  - intros x f t h C. discriminate C.
  - intros d C. unfold full_world, w_dir, ex_dir in C. destruct (str_eqb d _); discriminate C.
  - intros d es e E I. unfold full_world, w_dir, ex_dir in E. destruct (str_eqb d _); [injection E as <- | discriminate E]. cbn [In] in I. intuition (subst; discriminate).
  - intros d es e E I C. unfold full_world, w_dir, ex_dir in E. destruct (str_eqb d _); [injection E as <- | discriminate E]. cbn [In] in I.
    intuition; match goal with H : Ret _ = Ret _ |- _ => injection H as <-; discriminate C end.
  - intros f C. unfold full_world, w_read, ex_read in C. repeat destruct (str_eqb f _); discriminate C.
  - intros b C. unfold full_world, w_object, ex_object in C. destruct (str_eqb b _); discriminate C.
  - intros f C. discriminate C.
  - intros f ms m E I. injection E as <-. cbn [In] in I. intuition (subst; discriminate).
  - intros f ms m E I C. injection E as <-. cbn [In] in I. intuition; match goal with H : Ret _ = Ret _ |- _ => injection H as <-; discriminate C end.
  - intros f C. discriminate C.
  - intros f C. discriminate C.
Qed.
Lemma ex_answers : answers ex_w /\ sane ex_w.
Proof. split; [apply full_answers | apply ex_sane]. Qed.
(** A program whose functions call each other in circles, and a text the grammar has no place for. *)
Definition p_circles : prog := mkProg OtherTarget
  [fdef "main" (fsig [] None) [Label; DirectCall (lit "even"); DirectCall (lit "main"); Other]; fdef "even" (fsig [] None) [Label; DirectCall (lit "odd"); Other];
   fdef "odd" (fsig [] None) [Label; DirectCall (lit "even"); Other]] []
  [(lit "main", 16%N); (lit "even", 8%N); (lit "odd", 8%N)] [X_build.at_ 4096 ["main"]; X_build.at_ 4112 ["even"]; X_build.at_ 4128 ["odd"]] [] [] None.
Lemma circles_wf : wf_prog p_circles /\ fair o_id.
Proof. split; [apply wf_progb_sound; vm_compute; reflexivity | exact o_id_fair]. Qed.
