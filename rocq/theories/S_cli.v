(** What a command line of the tool means, independently of how it is parsed. *)
From Verif Require Import M_base M_run M_wrapper M_driver S_driver.

(** What a user can ask for. *)
Inductive setting := STarget (v : str) | SBin (v : str) | SExample (v : str) | SFeatures (v : str) | SFormat (f : format) | SAll | SVerbose | SStart (v : str).
Definition kind (s : setting) : nat :=
  match s with STarget _ => 0 | SBin _ => 1 | SExample _ => 2 | SFeatures _ => 3 | SFormat _ => 4 | SAll => 5 | SVerbose => 6 | SStart _ => 7 end.
(** Nothing is asked for twice. *)
Definition once (ss : list setting) : Prop := NoDup (map kind ss).

(** A word that is not an option: it has no dash in front, or is just a dash. *)
Definition word (v : str) : Prop := forall r, v = lit "-" ++ r -> r = [].
(** [named utf8 name v s]: the option [name] with the value [v] asks for [s]. *)
Inductive named (utf8 : str -> bool) : str -> str -> setting -> Prop :=
| nm_target v : utf8 v = true -> named utf8 (lit "target") v (STarget v)
| nm_bin v : utf8 v = true -> named utf8 (lit "bin") v (SBin v)
| nm_example v : utf8 v = true -> named utf8 (lit "example") v (SExample v)
| nm_features v : utf8 v = true -> named utf8 (lit "features") v (SFeatures v)
| nm_dot : utf8 (lit "dot") = true -> named utf8 (lit "format") (lit "dot") (SFormat Dot)
| nm_top : utf8 (lit "top") = true -> named utf8 (lit "format") (lit "top") (SFormat Top).
(** The ways to write a setting. *)
Inductive spelled (utf8 : str -> bool) : setting -> list str -> Prop :=
| sp_two name v s : named utf8 name v s -> word v -> spelled utf8 s [lit "--" ++ name; v]
| sp_one name v s : named utf8 name v s -> spelled utf8 s [lit "--" ++ name ++ lit "=" ++ v]
| sp_all : spelled utf8 SAll [lit "--all-features"]
| sp_verbose : spelled utf8 SVerbose [lit "--verbose"]
| sp_v : spelled utf8 SVerbose [lit "-v"]
| sp_start v : word v -> utf8 v = true -> spelled utf8 (SStart v) [v].
(** A command line, without the name of the program.  After `--` there can only be a start point. *)
Inductive line (utf8 : str -> bool) : list setting -> list str -> Prop :=
| ln_plain ss ws : Forall2 (spelled utf8) ss ws -> line utf8 ss (concat ws)
| ln_end ss ws : Forall2 (spelled utf8) ss ws -> line utf8 ss (concat ws ++ [lit "--"])
| ln_rest ss ws v : Forall2 (spelled utf8) ss ws -> utf8 v = true -> line utf8 (ss ++ [SStart v]) (concat ws ++ [lit "--"; v]).
(** The options say what was asked for; the format is `dot` if nothing else was. *)
Record says (ss : list setting) (a : args) : Prop := {
  sa_target : forall v, a_target a = Some v <-> In (STarget v) ss;
  sa_bin : forall v, a_bin a = Some v <-> In (SBin v) ss;
  sa_example : forall v, a_example a = Some v <-> In (SExample v) ss;
  sa_features : forall v, a_features a = Some v <-> In (SFeatures v) ss;
  sa_format : forall f, In (SFormat f) ss -> a_format a = f;
  sa_default : (forall f, ~ In (SFormat f) ss) -> a_format a = Dot;
  sa_all : a_all_features a = true <-> In SAll ss;
  sa_verbose : a_verbose a = true <-> In SVerbose ss;
  sa_start : forall v, a_start a = Some v <-> In (SStart v) ss
}.
(** A word that asks for the help text or the version, after the settings [ss]. *)
Inductive asks (ss : list setting) : str -> Prop :=
| as_help : asks ss (lit "--help")
| as_version : asks ss (lit "--version")
| as_short c more : c = "h"%char \/ c = "V"%char -> asks ss (lit "-" ++ c :: more)
| as_group c more : c = "h"%char \/ c = "V"%char -> ~ In SVerbose ss -> asks ss (lit "-v" ++ c :: more).
(** Everything a run does except for its log. *)
Definition effects (t : list event) : list event := filter (fun e => match e with ELog _ => false | _ => true end) t.
(** The same world, the process being given another command line. *)
Definition with_argv (w : world) (argv : list str) : world :=
  mkWorld (w_wrapper w) argv (w_rustc w) (w_hash w) (w_host w) (w_meta w) (w_override w) (w_args w) (w_project w) (w_root w) (w_cfg w) (w_exe w) (w_set_times w)
    (w_exists w) (w_walk w) (w_cargo w) (w_utf8 w) (w_path w) (w_dir w) (w_read w) (w_object w) (w_archive w) (w_executable w) (w_symtab w) (w_text w)
    (w_defines_order w) (w_orders w) (w_fault w).
(** cargo runs the tool for `cargo call-stack ...` with the name of the subcommand in front of the arguments. *)
Definition via_cargo (exe : str) (argv : list str) : list str := exe :: lit "call-stack" :: argv.
(** The options are read: this is neither the wrapper nor an unsupported toolchain. *)
Record reads_options (w : world) : Prop := {
  ro_user : w_wrapper w = false;
  ro_meta : w_meta w = Ret tt;
  ro_toolchain : accepted w
}.
