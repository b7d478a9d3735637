(** What can keep the tool from starting the build. *)
From Verif Require Import M_base M_wrapper M_driver S_driver.

(** [untouched w m]: no source file can be touched; [m] is the reason. *)
Inductive untouched (w : world) (m : str) : Prop :=
| ut_walk a l src d seen rest : inside (w_root w) (lit "src/main.rs") a -> w_set_times w a <> Ret tt -> inside (w_root w) (lit "src/lib.rs") l -> w_set_times w l <> Ret tt ->
    inside (w_root w) (lit "src") src -> d = (if w_exists w src then src else w_root w) ->
    w_walk w d = map Ret seen ++ Fail m :: rest -> (forall x, In x seen -> ~ rust_file x) -> untouched w m
| ut_times a l src d seen f rest : inside (w_root w) (lit "src/main.rs") a -> w_set_times w a <> Ret tt -> inside (w_root w) (lit "src/lib.rs") l -> w_set_times w l <> Ret tt ->
    inside (w_root w) (lit "src") src -> d = (if w_exists w src then src else w_root w) ->
    w_walk w d = map Ret seen ++ Ret f :: rest -> (forall x, In x seen -> ~ rust_file x) -> rust_file f -> w_set_times w f = Fail m -> untouched w m.
(** [obstacle w m]: the first thing that is in the way of the build; [m] is what the tool says about it.  (The text about bytes that are no UTF-8 is
    shorter than the real one.) *)
Inductive obstacle (w : world) : str -> Prop :=
| ob_meta m : w_meta w = Fail m -> obstacle w m
| ob_toolchain : w_meta w = Ret tt -> ~ accepted w -> obstacle w (lit "unsupported rust toolchain")
| ob_artifact : w_meta w = Ret tt -> accepted w -> (forall f, ~ one_artifact (w_args w) f) -> obstacle w (lit "Please specify either --example <NAME> or --bin <NAME>.")
| ob_project f m : w_meta w = Ret tt -> accepted w -> one_artifact (w_args w) f -> w_project w = Fail m -> obstacle w m
| ob_cfg f config m : w_meta w = Ret tt -> accepted w -> one_artifact (w_args w) f -> w_project w = Ret config -> w_cfg w (target_of w config) = Fail m -> obstacle w m
| ob_utf8 f config cfg : w_meta w = Ret tt -> accepted w -> one_artifact (w_args w) f -> w_project w = Ret config -> w_cfg w (target_of w config) = Ret cfg -> w_utf8 w cfg = false ->
    obstacle w (lit "invalid utf-8")
| ob_exe f config cfg m : w_meta w = Ret tt -> accepted w -> one_artifact (w_args w) f -> w_project w = Ret config -> w_cfg w (target_of w config) = Ret cfg -> w_utf8 w cfg = true ->
    w_exe w = Fail m -> obstacle w m
| ob_touch f config cfg exe m : w_meta w = Ret tt -> accepted w -> one_artifact (w_args w) f -> w_project w = Ret config -> w_cfg w (target_of w config) = Ret cfg -> w_utf8 w cfg = true ->
    w_exe w = Ret exe -> untouched w m -> obstacle w m.
