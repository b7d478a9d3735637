(** Model of the driver: main.rs 84-126, 130-335, 353-418 and the whole [run].

    The outside world (environment, project, file system, child processes, the parsers of object and ELF files) is a record
    of answers.  [Args::parse] is in M_cli; the options are given as a record here.  Not modelled: which messages env_logger shows and how, write errors on stderr.
    Times of files are only compared; that of the touched file is not tracked. *)
From Verif Require Import M_base M_stack M_graph M_analysis M_names M_thumb M_ty M_nom M_parse M_render M_write M_build M_run M_log M_wrapper.

(** main.rs 49-82 [Args]. *)
Record args := mkArgs {
  a_target : option str;
  a_bin : option str;
  a_example : option str;
  a_features : option str;
  a_all_features : bool;
  a_verbose : bool;
  a_format : format;
  a_start : option str
}.

(** An entry of a directory: file name, is it UTF-8, modification time. *)
Record entry := mkEntry { en_name : str; en_utf8 : bool; en_time : outcome N }.
(** An entry of an archive: identifier, is it UTF-8, contents. *)
Record member := mkMember { mb_id : str; mb_utf8 : bool; mb_data : outcome str }.
(** The part of `stack_sizes::analyze_executable`'s result that is used (main.rs 396-418). *)
Record elf_symbols := mkElf { el_defined : list (N * symbol); el_undefined : list str }.

(** main.rs 103-1233: what the program learns from outside. *)
Record world := mkWorld {
  w_wrapper : bool;                                      (* CARGO_CALL_STACK_RUSTC_WRAPPER is set *)
  w_argv : list str;
  w_rustc : str -> list str -> outcome (option Z);
  w_hash : option str;                                   (* rustc_version::version_meta *)
  w_host : str;
  w_meta : outcome unit;
  w_override : option str;                               (* CARGO_CALL_STACK_UNSPPORTED_NIGHTLY *)
  w_args : args;
  w_project : outcome (option str);                      (* Project::query, target() *)
  w_root : str;                                          (* the directory of project.toml() *)
  w_cfg : str -> outcome str;                            (* stdout of `rustc --print=cfg` *)
  w_exe : outcome str;
  w_set_times : str -> outcome unit;                     (* filetime::set_file_times *)
  w_exists : str -> bool;
  w_walk : str -> list (outcome str);                    (* WalkDir: paths, the directory itself first *)
  w_cargo : list str -> outcome (str * option Z);        (* stderr and exit code *)
  w_utf8 : str -> bool;
  w_path : bool -> str -> option str -> str -> outcome str;   (* project.path(Example or Bin(file), Release, target_flag, host) *)
  w_dir : str -> outcome (list (outcome entry));         (* fs::read_dir *)
  w_read : str -> outcome str;                           (* fs::read *)
  w_object : str -> outcome (list (str * N));            (* stack_sizes::analyze_object *)
  w_archive : str -> outcome (list (outcome member));    (* ar *)
  w_executable : str -> outcome elf_symbols;             (* stack_sizes::analyze_executable *)
  w_symtab : str -> outcome (list (N * str));            (* xmas_elf: .symtab *)
  w_text : str -> option (N * str);                      (* xmas_elf: .text *)
  w_defines_order : list (str * define) -> list (str * define);   (* iteration order of the map [defines] *)
  w_orders : orders;
  w_fault : faults                                       (* errors of stdout *)
}.

(** main.rs 97-100. *)
Definition supported_hash : str := lit "2b603f95a48f10f931a61dd208fe3e5ffd64e491".
Definition unsupported_value : str := lit "I won't open issues about unsupported toolchains".
Definition supported_name : str := lit "nightly-2023-11-13".
Definition unsupported_key : str := lit "CARGO_CALL_STACK_UNSPPORTED_NIGHTLY".
(** main.rs 113-123. *)
Definition unsupported_text : str :=
  lit "Your rust toolchain does not match the last known working version, which is " ++ supported_name ++ lit "." ++ nl ++ nl ++
  lit "You can override the toolchain that cargo-call-stack uses like this `cargo +" ++ supported_name ++ lit " call-stack (..)`." ++ nl ++
  lit "See the rustup documentation for other methods to change / pin the toolchain version." ++ nl ++
  lit "Note that the `rust-src` component must be available for the specified toolchain;" ++ nl ++
  lit "that is you may want to run `rustup component add --toolchain " ++ supported_name ++ lit " rust-src` first." ++ nl ++ nl ++
  lit "If you would like to use cargo-call-stack with your current toolchain, which most likely won't work, set the following environment variable as shown below" ++ nl ++ nl ++
  lit "    export " ++ unsupported_key ++ lit "=" ++ [dquote] ++ unsupported_value ++ [dquote] ++ nl.

(** main.rs 111-112. *)
Definition oeqb (a b : option str) : bool :=
  match a, b with Some x, Some y => str_eqb x y | None, None => true | _, _ => false end.
(** [Option::or], [Option::unwrap_or] (main.rs 143, 353). *)
Definition oor {A} (a b : option A) : option A := match a with Some _ => a | None => b end.
(** main.rs 143, 353. *)
Definition oget {A} (a : option A) (d : A) : A := match a with Some x => x | None => d end.

(** main.rs 133-137. *)
Definition pick_file (a : args) : outcome str :=
  match a_example a, a_bin a with
  | Some f, None => Ret f
  | None, Some f => Ret f
  | _, _ => Fail (lit "Please specify either --example <NAME> or --bin <NAME>.")
  end.

(** main.rs 147-157. *)
Definition is_none_line (line : str) : bool :=
  match strip_prefix (lit "target_os=") line with
  | Some value => str_eqb value (dquote :: lit "none" ++ [dquote])
  | None => false
  end.
Definition no_std (lines : list str) : bool := fold_left (fun b line => if is_none_line line then true else b) lines false.

(** main.rs 159-203. *)
Definition cargo_args (a : args) (file : str) (is_no_std : bool) : list str :=
  [lit "rustc"] ++
  match a_target a with Some t => [lit "--target"; t] | None => [] end ++
  (if a_all_features a then [lit "--all-features"] else match a_features a with Some f => [lit "--features"; f] | None => [] end) ++
  match a_example a with Some _ => [lit "--example"; file] | None => [] end ++
  match a_bin a with Some _ => [lit "--bin"; file] | None => [] end ++
  [lit "--release"] ++
  [if is_no_std then lit "-Zbuild-std=core,alloc,compiler_builtins" else lit "-Zbuild-std";
   lit "--color=always"; lit "--"; lit "--emit=llvm-ir,obj"; lit "-C"; lit "embed-bitcode=yes"; lit "-C"; lit "lto=fat"].

(** [BufRead::lines] and [str::lines]: a line ends with a newline, which is removed together with a carriage return before it; the last line
    may lack the newline. *)
(** main.rs 150, 238. *)
Definition strip_cr (rline : str) : str := match rline with c :: r => if Ascii.eqb c "013" then rev r else rev rline | [] => [] end.
(** main.rs 150, 238. *)
Fixpoint lines_from (racc : str) (s : str) : list str :=
  match s with
  | [] => match racc with [] => [] | _ => [rev racc] end
  | c :: s' => if Ascii.eqb c "010" then strip_cr racc :: lines_from [] s' else lines_from (c :: racc) s'
  end.
(** main.rs 238. *)
Definition buf_lines (s : str) : list str := lines_from [] s.

(** main.rs 236-249. *)
Fixpoint read_stderr (utf8 : str -> bool) (lines : list str) (rlib ll : option str) : io (option str * option str) :=
  match lines with
  | [] => iret (rlib, ll)
  | line :: rest =>
      if negb (utf8 line) then lift (Fail (lit "stream did not contain valid UTF-8"))
      else if starts_with rlib_marker line then read_stderr utf8 rest (Some (skipn (length rlib_marker) line)) ll
      else if starts_with ll_marker line then read_stderr utf8 rest rlib (Some (skipn (length ll_marker) line))
      else do* _ := say (EErr line) in read_stderr utf8 rest rlib ll
  end.

(** [str::replace] of a character by another (main.rs 275). *)
Definition replace_char (a b : ascii) (s : str) : str := map (fun c => if Ascii.eqb c a then b else c) s.

(** [Path::file_stem] and [Path::extension] (library/std/src/path.rs [rsplit_file_at_dot]) of a file name other than `..`: split at
    the last dot, unless nothing is before it. *)
(** main.rs 222, 287-292. *)
Definition stem_ext (name : str) : option (str * str) :=
  match rsplit_once (lit ".") name with
  | Some ([], _) => None
  | Some (before, after) => Some (before, after)
  | None => None
  end.

(** [Path::join] with a relative path (main.rs 212-215, 280). *)
Definition join (d n : str) : str :=
  match rev d with
  | [] => n
  | c :: _ => if Ascii.eqb c "/" then d ++ n else d ++ lit "/" ++ n
  end.
(** [Path::parent] and [Path::file_name] of a path without trailing or repeated slashes and without the component `.`, which is not
    `/` or empty. *)
(** main.rs 210, 277. *)
Definition parent (path : str) : str :=
  match rsplit_once (lit "/") path with
  | Some ([], _) => lit "/"
  | Some (d, _) => d
  | None => []
  end.
(** main.rs 283-292. *)
Definition base_name (path : str) : str := match rsplit_once (lit "/") path with Some (_, n) => n | None => path end.

(** main.rs 142-157: ask rustc about the target. *)
Definition ask_cfg (w : world) (target : str) : outcome (list str) :=
  let* stdout := w_cfg w target in
  if w_utf8 w stdout then Ret (buf_lines stdout) else Fail (lit "invalid utf-8").

(** main.rs 217-227: the first source file of a walk is touched. *)
Definition is_rs (path : str) : bool := match stem_ext (base_name path) with Some (_, ext) => str_eqb ext (lit "rs") | None => false end.
Fixpoint touch_first (w : world) (walk : list (outcome str)) : io unit :=
  match walk with
  | [] => iret tt
  | entry :: rest =>
      do* path := lift entry in
      if is_rs path then
        do* _ := lift (w_set_times w path) in
        say (ETouch path)
      else touch_first w rest
  end.
Definition is_ok {A} (x : outcome A) : bool := match x with Ret _ => true | _ => false end.
(** main.rs 207-230: "touch" some source file to trigger a rebuild. *)
Definition touch (w : world) : io unit :=
  let root := w_root w in
  let main_rs := join root (lit "src/main.rs") in
  let lib_rs := join root (lit "src/lib.rs") in
  if is_ok (w_set_times w main_rs) then say (ETouch main_rs)
  else if is_ok (w_set_times w lib_rs) then say (ETouch lib_rs)
  else
    let src := join root (lit "src") in
    touch_first w (w_walk w (if w_exists w src then src else root)).

(** [map_err(|e| anyhow!("...: {}", e))] (main.rs 269, 311, 313, 315-333, 372). *)
Definition context {A} (what path : str) (x : outcome A) : outcome A :=
  match x with Fail e => Fail (what ++ path ++ lit "`: " ++ e) | _ => x end.
(** [fs::read_to_string] (main.rs 310, 315). *)
Definition read_to_string (w : world) (path : str) : outcome str :=
  let* text := w_read w path in
  if w_utf8 w text then Ret text else Fail (lit "stream did not contain valid UTF-8").

(** main.rs 283-306.  The state is the file chosen so far and its modification time. *)
Fixpoint pick_ll (prefix : str) (es : list (outcome entry)) (best : option (str * N)) : outcome (option (str * N)) :=
  match es with
  | [] => Ret best
  | e :: es' =>
      let* e := e in
      match stem_ext (en_name e) with
      | Some (stem, ext) =>
          if str_eqb ext (lit "ll") then
            if negb (en_utf8 e) then Panic "unreachable"
            else if starts_with prefix stem then
              let* modified := en_time e in
              match best with
              | None => pick_ll prefix es' (Some (en_name e, modified))
              | Some (_, mrm) =>
                  if (mrm <? modified)%N then pick_ll prefix es' (Some (en_name e, modified)) else pick_ll prefix es' best
              end
            else pick_ll prefix es' best
          else pick_ll prefix es' best
      | None => pick_ll prefix es' best
      end
  end.
(** main.rs 309 [with_extension("o")]; [ll_path] has an extension. *)
Definition object_of (ll : str) : str := match stem_ext ll with Some (stem, _) => stem ++ lit ".o" | None => ll ++ lit ".o" end.

(** [str::contains] (main.rs 381). *)
Fixpoint contains (p s : str) : bool :=
  starts_with p s || match s with [] => false | _ :: s' => contains p s' end.
(** main.rs 376-392: the stack sizes of the objects of compiler_builtins. *)
Fixpoint archive_sizes (w : world) (ms : list (outcome member)) : outcome (list (list (str * N))) :=
  match ms with
  | [] => Ret []
  | m :: ms' =>
      let* m := m in
      if mb_utf8 m && (contains compiler_builtins (mb_id m) && ends_with (lit ".o") (mb_id m)) then
        let* buf := mb_data m in
        let* sizes := w_object w buf in
        let* rest := archive_sizes w ms' in
        Ret (sizes :: rest)
      else archive_sizes w ms'
  end.

(** [ir::parse] with the error message of main.rs 323-336 and ir.rs 70-85.  The error of nom is always a [Failure] of kind [Eof]
    (C33_only_one_kind_of_error). *)
Definition parse_ir (what path text : str) : outcome (list item) :=
  match parse text with
  | Parsed x => Ret x
  | Failed line => Fail (what ++ path ++ lit "`: BUG: failed to parse LLVM IR; please submit a cargo-call-stack bug report and attach the `.ll` file: Failure(""Eof in line " ++ show_nat line ++ lit """)")
  | Unreachable => Panic "couldn't find line the parse error refers to"
  | OutOfFuel => Fuel
  end.

(** main.rs 262-418 and 791-793: everything that the construction of the graph reads, with the result of reading the symbol table
    (main.rs 772-790), which is looked at later. *)
Definition load_files (w : world) (target file rlib ll : str) : outcome (prog * outcome (list (N * str))) :=
  let a := w_args w in
  let* path := w_path w (match a_example a with Some _ => true | None => false end) file (a_target a) (w_host w) in
  let* elf := context (lit "couldn't open ELF file `") path (w_read w path) in
  let path := parent path in
  let path := match a_bin a with Some _ => join path (lit "deps") | None => path end in
  let* dir := w_dir w path in
  let* best := pick_ll (replace_char "-" "_" file ++ lit "-") dir None in
  match best with
  | None => Panic "unreachable"
  | Some (ll_name, _) =>
      let ll_path := join path ll_name in
      let obj_path := join path (object_of ll_name) in
      let* ll_text := context (lit "couldn't read LLVM IR from `") ll_path (read_to_string w ll_path) in
      let* obj := context (lit "couldn't read object file `") obj_path (w_read w obj_path) in
      let* builtins := context (lit "couldn't read `compiler_builtins` LLVM IR from `") ll (read_to_string w ll) in
      let* items := parse_ir (lit "failed to parse application's LLVM IR from `") ll_path ll_text in
      let* builtins_items := parse_ir (lit "failed to parse `compiler_builtins` LLVM IR from `") ll builtins in
      let all := items ++ builtins_items in
      let t := classify_target target in
      let* sizes := w_object w obj in
      let* ms := context (lit "couldn't open `") rlib (w_archive w rlib) in
      let* more := archive_sizes w ms in
      let* symbols := w_executable w elf in
      Ret (mkProg t (w_defines_order w (collect_defines all)) (collect_declares all) (collect_sizes (sizes :: more))
                  (clear_thumb t (el_defined symbols)) (map strip_version (el_undefined symbols))
                  [] (if is_thumb t then w_text w elf else None),
           if is_thumb t then w_symtab w elf else Ret [])
  end.
(** main.rs 773-790: the tags of the symbol table. *)
Definition with_tags (p : prog) (symtab : list (N * str)) : prog :=
  mkProg (pg_target p) (pg_defines p) (pg_declares p) (pg_sizes p) (pg_defined p) (pg_undefined p) (collect_tags symtab) (pg_text p).
(** The program, if everything can be read (main.rs 257-419, 771-790). *)
Definition load (w : world) (target file rlib ll : str) : outcome prog :=
  let* (p, symtab) := load_files w target file rlib ll in
  let* s := symtab in
  Ret (with_tags p s).

(** main.rs 1228-1231: the output.  What stdout accepted is an event. *)
Definition emit (m : wr unit) : io unit := let '(k, r) := m (mkSink [] 0) in ([EOut (rev (sk_rev k))], r).
Definition write_output (w : world) (demangle : str -> str) (g : graph node) (cycles : list (list nat)) : wr unit :=
  match a_format (w_args w) with
  | Dot => write_dot (w_fault w) demangle g cycles
  | Top => write_top (w_fault w) demangle g
  end.

(** The messages of a computation are events (e.g. main.rs 500, 542). *)
Definition logged {A} (x : lg A) : io A := (map ELog (fst x), snd x).
(** main.rs 771-790: the symbol table of a Thumb executable is read between the edges from the IR and those from the machine code.
    If it can be read, the messages of the steps before are those of [report_log]; otherwise the run stops after them. *)
Definition read_symtab (demangle : str -> str) (p : prog) (symtab : outcome (list (N * str))) : io prog :=
  match symtab with
  | Ret s => iret (with_tags p s)
  | _ => do* _ := logged (early_log demangle p) in lift (let* s := symtab in Ret (with_tags p s))
  end.
Definition loading (demangle : str -> str) (w : world) (target file rlib ll : str) : io prog :=
  do* (p, symtab) := lift (load_files w target file rlib ll) in
  read_symtab demangle p symtab.
(** main.rs 257-1233: after a successful build. *)
Definition analyse (demangle : str -> str) (w : world) (target file : str) (paths : option str * option str) : io Z :=
  match paths with
  | (None, _) => lift (Panic "`compiler_builtins` was not linked")
  | (Some _, None) => lift (Panic "`compiler_builtins` LLVM IR unavailable")
  | (Some rlib, Some ll) =>
      do* p := loading demangle w target file rlib ll in
      do* (g, cycles) := logged (report_log demangle (w_orders w) (a_start (w_args w)) p) in
      do* _ := emit (write_output w demangle g cycles) in
      iret 0%Z
  end.
(** main.rs 234-1233: the build. *)
Definition build_and_analyse (demangle : str -> str) (w : world) (target file exe : str) (command : list str) : io Z :=
  do* _ := say (ECmd (lit "cargo") [(lit "CARGO_CALL_STACK_RUSTC_WRAPPER", lit "1"); (lit "RUSTC_WRAPPER", exe)] command) in
  do* child := lift (w_cargo w command) in
  do* paths := read_stderr (w_utf8 w) (buf_lines (fst child)) None None in
  match snd child with
  | Some 0%Z => analyse demangle w target file paths
  | Some code => iret code
  | None => iret 1%Z
  end.
(** main.rs 103-1234 [run]. *)
Definition run (demangle : str -> str) (w : world) : io Z :=
  if w_wrapper w then wrapper (w_utf8 w) (w_argv w) (w_rustc w)
  else
    do* _ := lift (w_meta w) in
    if negb (oeqb (w_hash w) (Some supported_hash)) && negb (oeqb (w_override w) (Some unsupported_value)) then
      do* _ := say (EErr unsupported_text) in
      lift (Fail (lit "unsupported rust toolchain"))
    else
      let a := w_args w in
      do* file := lift (pick_file a) in
      do* config := lift (w_project w) in
      let target := oget (oor config (a_target a)) (w_host w) in
      do* _ := say (ECmd (lit "rustc") [] [lit "--print=cfg"; lit "--target"; target]) in
      do* cfg := lift (ask_cfg w target) in
      let command := cargo_args a file (no_std cfg) in
      do* exe := lift (w_exe w) in
      do* _ := touch w in
      do* _ := if a_verbose a then say (EVerbose (lit "cargo") command) else iret tt in
      build_and_analyse demangle w target file exe command.

(** main.rs 84-92 [main]: what the process does and its exit code.  The message of a panic goes to stderr; the code is 101. *)
Definition main (demangle : str -> str) (w : world) : list event * Z :=
  match run demangle w with
  | (t, Ret code) => (t, code)
  | (t, Fail m) => (t ++ [EErr (lit "error: " ++ m)], 1%Z)
  | (t, Panic _) | (t, Fuel) => (t ++ [EErr (lit "thread 'main' panicked")], 101%Z)
  end.
