(** Model of the `rustc` wrapper: wrapper.rs. *)
From Verif Require Import M_base M_log.

(** [s.splitn(2, c)]: the text before the first [c] and, if there is one, the text after it. *)
Fixpoint splitn2 (c : ascii) (s : str) : str * option str :=
  match s with
  | [] => ([], None)
  | x :: s' => if Ascii.eqb x c then ([], Some s') else let '(a, b) := splitn2 c s' in (x :: a, b)
  end.

(** wrapper.rs 20-23 *)
Definition rlib_marker : str := lit "@CARGO_CALL_STACK:compiler_builtins_rlib_path@".
Definition ll_marker : str := lit "@CARGO_CALL_STACK:compiler_builtins_ll_path@".

(** wrapper.rs 60-70 [RustcArgs], [Extern].  While parsing, [crate_name] and [extra_filename] are optional (77-80). *)
Record extern := mkExtern { ex_name : str; ex_path : option str }.
Record parsing := mkParsing { ps_extra : option str; ps_crate : option str; ps_out : option str; ps_externs : list extern }.
Record rustc_args := mkRustcArgs { ra_extra : str; ra_crate : str; ra_out : option str; ra_externs : list extern }.

(** wrapper.rs 74 [NOPRELUDE] and 88-100: the argument of `--extern`. *)
Definition noprelude : str := lit "noprelude:".
Definition parse_extern (arg : str) : extern :=
  let arg := if starts_with noprelude arg then skipn (length noprelude) arg else arg in
  let '(name, path) := splitn2 "=" arg in mkExtern name path.

(** wrapper.rs 127-140: the argument of `-C`. *)
Definition parse_codegen (arg : str) (st : parsing) : outcome parsing :=
  let '(name, value) := splitn2 "=" arg in
  if str_eqb name (lit "extra-filename") then
    match value with
    | Some v => Ret (mkParsing (Some v) (ps_crate st) (ps_out st) (ps_externs st))
    | None => Fail (lit "missing value for `-Cextra-filename`")
    end
  else Ret st.

(** wrapper.rs 82-144: the loop; [args.next()] takes the head of the list. *)
Fixpoint parse_loop (args : list str) (st : parsing) : outcome parsing :=
  match args with
  | [] => Ret st
  | arg :: rest =>
      if str_eqb arg (lit "--extern") then
        match rest with
        | [] => Fail (lit "missing argument for `--extern`")
        | v :: rest' => parse_loop rest' (mkParsing (ps_extra st) (ps_crate st) (ps_out st) (ps_externs st ++ [parse_extern v]))
        end
      else if str_eqb arg (lit "--crate-name") then
        match rest with
        | [] => Fail (lit "missing argument for `--crate-name`")
        | v :: rest' => parse_loop rest' (mkParsing (ps_extra st) (Some v) (ps_out st) (ps_externs st))
        end
      else if str_eqb arg (lit "--out-dir") then
        match rest with
        | [] => Fail (lit "missing argument for `--out-dir`")
        | v :: rest' => parse_loop rest' (mkParsing (ps_extra st) (ps_crate st) (Some v) (ps_externs st))
        end
      else if starts_with (lit "-C") arg then
        match skipn 2 arg with
        | [] =>
            match rest with
            | [] => Fail (lit "missing argument for `-C`")
            | v :: rest' => let* st := parse_codegen v st in parse_loop rest' st
            end
        | v => let* st := parse_codegen v st in parse_loop rest st
        end
      else parse_loop rest st
  end.

(** wrapper.rs 73-152 [RustcArgs::parse]. *)
Definition parse_args (args : list str) : outcome rustc_args :=
  let* st := parse_loop args (mkParsing None None None []) in
  match ps_crate st with
  | Some c => Ret (mkRustcArgs (match ps_extra st with Some e => e | None => [] end) c (ps_out st) (ps_externs st))
  | None => Fail (lit "missing `--crate-name` argument")
  end.

(** What the program does, in order: lines on stderr, processes started (with additions to the environment), source files
    touched, log messages (main.rs 128: `env_logger` writes them to stderr), text on stdout. *)
(** main.rs 103-1233, wrapper.rs 25-58. *)
Inductive event :=
| EErr (line : str)
| EVerbose (prog : str) (args : list str)
| ECmd (prog : str) (env : list (str * str)) (args : list str)
| ETouch (path : str)
| ELog (m : message)
| EOut (text : str).
(** main.rs 103-1233, wrapper.rs 25-58. *)
Definition io (A : Type) := (list event * outcome A)%type.
(** main.rs 103-1233, wrapper.rs 25-58. *)
Definition iret {A} (x : A) : io A := ([], Ret x).
(** main.rs 103-1233, wrapper.rs 25-58. *)
Definition lift {A} (x : outcome A) : io A := ([], x).
(** e.g. wrapper.rs 36, 49. *)
Definition say (e : event) : io unit := ([e], Ret tt).
(** main.rs 103-1233, wrapper.rs 25-58. *)
Definition ibind {A B} (x : io A) (f : A -> io B) : io B :=
  match snd x with
  | Ret a => let r := f a in (fst x ++ fst r, snd r)
  | Fail m => (fst x, Fail m)
  | Panic m => (fst x, Panic m)
  | Fuel => (fst x, Fuel)
  end.
Notation "'do*' x ':=' e1 'in' e2" := (ibind e1 (fun x => e2))
  (at level 200, x pattern, e1 at level 200, e2 at level 200, right associativity).

(** wrapper.rs 35, 42. *)
Definition compiler_builtins : str := lit "compiler_builtins".

(** wrapper.rs 33-40. *)
Definition rlib_lines (externs : list extern) : list event :=
  flat_map (fun ext => if str_eqb (ex_name ext) compiler_builtins then
                         match ex_path ext with Some path => [EErr (rlib_marker ++ path)] | None => [] end
                       else []) externs.

(** wrapper.rs 26-58: the rest of [wrapper], when the arguments are known.  [rustc] gives the exit code of the process, none if it was killed
    by a signal, [Fail] if it could not be started. *)
Definition wrap (argv : list str) (rustc : str -> list str -> outcome (option Z)) : io Z :=
  match skipn 1 argv with
  | [] => lift (Panic "called `Option::unwrap()` on a `None` value")
  | rustc_path :: rustc_args =>
      do* args := lift (parse_args rustc_args) in
      do* _ := (rlib_lines (ra_externs args), Ret tt) in
      do* injected :=
        if str_eqb (ra_crate args) compiler_builtins then
          match ra_out args with
          | None => lift (Fail (lit "missing `--out-dir` argument"))
          | Some out_dir =>
              let ll_path := out_dir ++ lit "/" ++ ra_crate args ++ ra_extra args ++ lit ".ll" in
              do* _ := say (EErr (ll_marker ++ ll_path)) in iret [lit "--emit=llvm-ir"]
          end
        else iret [] in
      let all := injected ++ lit "-Zemit-stack-sizes" :: rustc_args in
      do* _ := say (ECmd rustc_path [] all) in
      do* code := lift (rustc rustc_path all) in
      iret (match code with Some c => c | None => (-1)%Z end)
  end.
(** wrapper.rs 25-58 [wrapper].  [argv] are the arguments of the process; [env::args()] panics, in 26, 27 or 30 and so before anything is
    done, if one of them is not UTF-8. *)
Definition wrapper (utf8 : str -> bool) (argv : list str) (rustc : str -> list str -> outcome (option Z)) : io Z :=
  if forallb utf8 argv then wrap argv rustc else lift (Panic "called `Result::unwrap()` on an `Err` value").
