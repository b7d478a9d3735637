(** Vocabulary for the cooperation of the two processes: cargo runs the compiler through the wrapper, the driver reads what the wrapper wrote. *)
From Verif Require Import M_base M_wrapper S_driver.

(** One run of the compiler by cargo: the options and the words they are written with. *)
Record compile := mkCompile { cp_opts : list opt; cp_words : list (list str) }.
Definition builtins : str := lit "compiler_builtins".
(** The command line is one on which the wrapper runs the compiler (C46): a crate is named, and compiler_builtins has an output directory. *)
Record works (c : compile) : Prop := {
  wk_written : Forall2 written (cp_opts c) (cp_words c);
  wk_named : exists n, latest crate_of (cp_opts c) (Some n);
  wk_out : latest crate_of (cp_opts c) (Some builtins) -> exists d, latest out_of (cp_opts c) (Some d)
}.
(** [compiles_builtins c path]: this run compiles compiler_builtins, and the IR that it is asked for goes to [path]. *)
Definition compiles_builtins (c : compile) (path : str) : Prop :=
  latest crate_of (cp_opts c) (Some builtins) /\
  exists d e, latest out_of (cp_opts c) (Some d) /\ latest extra_of (cp_opts c) e /\
  path = d ++ lit "/compiler_builtins" ++ match e with Some e => e | None => [] end ++ lit ".ll".
(** The archive of compiler_builtins that a run is to link with. *)
Definition links_builtins (o : opt) : option str :=
  match o with OExtern n (Some p) => if str_eqb n builtins then Some p else None | _ => None end.
(** [f c] is how the run [c] of the compiler ends.  What the build prints consists of the lines of the wrapper in the order of the runs [cs], between other lines. *)
Definition mark_of (n : note) : option str := match n with NText _ => None | _ => Some (note_line n) end.
(** The command line is UTF-8. *)
Definition passes (utf8 : str -> bool) (exe rustc : str) (c : compile) : Prop := Forall (fun a => utf8 a = true) (exe :: rustc :: concat (cp_words c)).
Definition reported_by (utf8 : str -> bool) (exe rustc : str) (cs : list compile) (f : compile -> str -> list str -> outcome (option Z)) (ns : list note) : Prop :=
  select mark_of ns = concat (map (fun c => errors (fst (wrapper utf8 (exe :: rustc :: concat (cp_words c)) (f c)))) cs).
