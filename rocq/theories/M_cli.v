(** Model of the command line: main.rs 42-82 ([Args], [OutputFormat]) and main.rs 130 [Args::parse], and the start of the process.

    The derive attributes of [Args] are in the repository; how they are carried out is clap 4 (clap_builder/src/parser/parser.rs
    [get_matches_with], [parse_long_arg], [parse_short_arg], [react]).  clap keeps the value of an option pending and checks it at
    the next argument; it is checked at once here, which does not change whether the command line is accepted, refused or
    answered with a help text.  The texts that clap prints are not modelled. *)
From Verif Require Import M_base M_run M_wrapper M_driver.

(** What has been read: each of the eight fields of [Args], main.rs 53-81. *)
Definition no_args : args := mkArgs None None None None false false Dot None.
Record reading := mkReading { rd_args : args; rd_format : bool }.   (* [rd_format]: `--format` was given *)

(** The options with a value, main.rs 53-66, 76-77. *)
Inductive valued := VTarget | VBin | VExample | VFeatures | VFormat.
Inductive switch := WAll | WVerbose | WHelp | WVersion.
(** The names that `#[arg(long)]` makes of the fields, and the built-in `--help` and `--version` (main.rs 50). *)
Definition long_valued (name : str) : option valued :=
  if str_eqb name (lit "target") then Some VTarget
  else if str_eqb name (lit "bin") then Some VBin
  else if str_eqb name (lit "example") then Some VExample
  else if str_eqb name (lit "features") then Some VFeatures
  else if str_eqb name (lit "format") then Some VFormat
  else None.
Definition long_switch (name : str) : option switch :=
  if str_eqb name (lit "all-features") then Some WAll
  else if str_eqb name (lit "verbose") then Some WVerbose
  else if str_eqb name (lit "help") then Some WHelp
  else if str_eqb name (lit "version") then Some WVersion
  else None.
Definition short_switch (c : ascii) : option switch :=
  if Ascii.eqb c "v" then Some WVerbose
  else if Ascii.eqb c "h" then Some WHelp
  else if Ascii.eqb c "V" then Some WVersion
  else None.

(** The result of [Args::parse]: options, a help text on stdout (exit code 0), a message on stderr (exit code 2). *)
Inductive parsed := Parsed (a : args) | Shown | Refused.
Inductive step := Next (r : reading) | Stop (p : parsed).

(** main.rs 42-46: [ValueEnum]. *)
Definition format_of (v : str) : option format :=
  if str_eqb v (lit "dot") then Some Dot else if str_eqb v (lit "top") then Some Top else None.
Definition is_some {A} (o : option A) : bool := match o with Some _ => true | None => false end.
(** [ArgAction::Set]: an option that is given twice is an error (main.rs 53-66, 76-77). *)
Definition set_value (utf8 : str -> bool) (o : valued) (v : str) (r : reading) : step :=
  let a := rd_args r in
  if negb (utf8 v) then Stop Refused
  else match o with
  | VTarget => if is_some (a_target a) then Stop Refused
      else Next (mkReading (mkArgs (Some v) (a_bin a) (a_example a) (a_features a) (a_all_features a) (a_verbose a) (a_format a) (a_start a)) (rd_format r))
  | VBin => if is_some (a_bin a) then Stop Refused
      else Next (mkReading (mkArgs (a_target a) (Some v) (a_example a) (a_features a) (a_all_features a) (a_verbose a) (a_format a) (a_start a)) (rd_format r))
  | VExample => if is_some (a_example a) then Stop Refused
      else Next (mkReading (mkArgs (a_target a) (a_bin a) (Some v) (a_features a) (a_all_features a) (a_verbose a) (a_format a) (a_start a)) (rd_format r))
  | VFeatures => if is_some (a_features a) then Stop Refused
      else Next (mkReading (mkArgs (a_target a) (a_bin a) (a_example a) (Some v) (a_all_features a) (a_verbose a) (a_format a) (a_start a)) (rd_format r))
  | VFormat => match format_of v with
      | None => Stop Refused
      | Some f => if rd_format r then Stop Refused
          else Next (mkReading (mkArgs (a_target a) (a_bin a) (a_example a) (a_features a) (a_all_features a) (a_verbose a) f (a_start a)) true)
      end
  end.
(** [ArgAction::SetTrue], [ArgAction::Help], [ArgAction::Version] (main.rs 68-74). *)
Definition set_switch (s : switch) (r : reading) : step :=
  let a := rd_args r in
  match s with
  | WAll => if a_all_features a then Stop Refused
      else Next (mkReading (mkArgs (a_target a) (a_bin a) (a_example a) (a_features a) true (a_verbose a) (a_format a) (a_start a)) (rd_format r))
  | WVerbose => if a_verbose a then Stop Refused
      else Next (mkReading (mkArgs (a_target a) (a_bin a) (a_example a) (a_features a) (a_all_features a) true (a_format a) (a_start a)) (rd_format r))
  | WHelp | WVersion => Stop Shown
  end.
(** The positional argument, main.rs 80; there is only one. *)
Definition set_start (utf8 : str -> bool) (v : str) (r : reading) : step :=
  let a := rd_args r in
  if negb (utf8 v) then Stop Refused
  else if is_some (a_start a) then Stop Refused
  else Next (mkReading (mkArgs (a_target a) (a_bin a) (a_example a) (a_features a) (a_all_features a) (a_verbose a) (a_format a) (Some v)) (rd_format r)).
(** A group of short options (main.rs 73). *)
Fixpoint set_shorts (cs : str) (r : reading) : step :=
  match cs with
  | [] => Next r
  | c :: cs' => match short_switch c with
      | None => Stop Refused
      | Some s => match set_switch s r with Next r' => set_shorts cs' r' | Stop p => Stop p end
      end
  end.
(** [split_once('=')].  main.rs 53-77: `--name=value`. *)
Fixpoint cut_equals (s : str) : str * option str :=
  match s with
  | [] => ([], None)
  | c :: s' => if Ascii.eqb c "=" then ([], Some s') else let (n, v) := cut_equals s' in (c :: n, v)
  end.
(** Is this argument an option rather than a value: longer than `-` and with a dash in front (main.rs 53-81). *)
Definition dashed (arg : str) : bool := match arg with c :: _ :: _ => Ascii.eqb c "-" | _ => false end.

(** The rest of the command line after `--` (main.rs 80). *)
Fixpoint read_rest (utf8 : str -> bool) (argv : list str) (r : reading) : parsed :=
  match argv with
  | [] => Parsed (rd_args r)
  | arg :: argv' => match set_start utf8 arg r with Next r' => read_rest utf8 argv' r' | Stop p => p end
  end.
(** [pending]: the option whose value comes next (main.rs 130). *)
Fixpoint read_cli (utf8 : str -> bool) (argv : list str) (pending : option valued) (r : reading) : parsed :=
  match argv with
  | [] => match pending with Some _ => Refused | None => Parsed (rd_args r) end
  | arg :: argv' =>
      match pending with
      | Some o =>
          if dashed arg then Refused
          else match set_value utf8 o arg r with Next r' => read_cli utf8 argv' None r' | Stop p => p end
      | None =>
          if str_eqb arg (lit "--") then read_rest utf8 argv' r
          else if starts_with (lit "--") arg then
            let (name, value) := cut_equals (skipn 2 arg) in
            match long_valued name, long_switch name, value with
            | Some o, _, Some v => match set_value utf8 o v r with Next r' => read_cli utf8 argv' None r' | Stop p => p end
            | Some o, _, None => read_cli utf8 argv' (Some o) r
            | None, Some s, None => match set_switch s r with Next r' => read_cli utf8 argv' None r' | Stop p => p end
            | None, Some _, Some _ => Refused
            | None, None, _ => Refused
            end
          else if dashed arg then
            match set_shorts (skipn 1 arg) r with Next r' => read_cli utf8 argv' None r' | Stop p => p end
          else match set_start utf8 arg r with Next r' => read_cli utf8 argv' None r' | Stop p => p end
      end
  end.
(** main.rs 130: [Args::parse()] skips the name of the program. *)
Definition cli (utf8 : str -> bool) (argv : list str) : parsed := read_cli utf8 (skipn 1 argv) None (mkReading no_args false).

(** main.rs 130. *)
Definition with_args (w : world) (a : args) : world :=
  mkWorld (w_wrapper w) (w_argv w) (w_rustc w) (w_hash w) (w_host w) (w_meta w) (w_override w) a (w_project w) (w_root w) (w_cfg w) (w_exe w) (w_set_times w)
    (w_exists w) (w_walk w) (w_cargo w) (w_utf8 w) (w_path w) (w_dir w) (w_read w) (w_object w) (w_archive w) (w_executable w) (w_symtab w) (w_text w)
    (w_defines_order w) (w_orders w) (w_fault w).
(** main.rs 104-128: the run ends before the options are read. *)
Definition ends_early (w : world) : bool :=
  w_wrapper w || negb (match w_meta w with Ret _ => true | _ => false end) ||
  (negb (oeqb (w_hash w) (Some supported_hash)) && negb (oeqb (w_override w) (Some unsupported_value))).
(** The process, from its command line (main.rs 84-130). *)
Definition launch (demangle : str -> str) (w : world) : list event * Z :=
  if ends_early w then main demangle w
  else match cli (w_utf8 w) (w_argv w) with
       | Parsed a => main demangle (with_args w a)
       | Shown => ([], 0%Z)
       | Refused => ([], 2%Z)
       end.
