(** Specification vocabulary for the end of every run. *)
From Verif Require Import M_base M_thumb M_ty M_parse M_build M_run M_log M_wrapper M_driver.

(** The rest of the world answers: cargo, rustc, the file system and the libraries come to an end. *)
Record answers (w : world) : Prop := {
  as_rustc : forall p l, w_rustc w p l <> Fuel;
  as_meta : w_meta w <> Fuel;
  as_project : w_project w <> Fuel;
  as_cfg : forall t, w_cfg w t <> Fuel;
  as_exe : w_exe w <> Fuel;
  as_times : forall f, w_set_times w f <> Fuel;
  as_walk : forall d e, In e (w_walk w d) -> e <> Fuel;
  as_cargo : forall l, w_cargo w l <> Fuel;
  as_path : forall x f t h, w_path w x f t h <> Fuel;
  as_dir : forall d, w_dir w d <> Fuel;
  as_entry : forall d es e, w_dir w d = Ret es -> In e es -> e <> Fuel;
  as_modified : forall d es e, w_dir w d = Ret es -> In (Ret e) es -> en_time e <> Fuel;
  as_read : forall f, w_read w f <> Fuel;
  as_object : forall b, w_object w b <> Fuel;
  as_archive : forall f, w_archive w f <> Fuel;
  as_member : forall f ms m, w_archive w f = Ret ms -> In m ms -> m <> Fuel;
  as_data : forall f ms m, w_archive w f = Ret ms -> In (Ret m) ms -> mb_data m <> Fuel;
  as_executable : forall f, w_executable w f <> Fuel;
  as_symtab : forall f, w_symtab w f <> Fuel
}.
