(** Specification vocabulary for the `rustc` wrapper and the driver. *)
From Coq Require Import Permutation Sorted.
From Verif Require Import M_base M_thumb M_ty M_parse M_build M_run M_log M_wrapper M_driver S_names S_build.

(** ** Command lines of rustc *)
Inductive opt :=
| OExtern (name : str) (path : option str)
| OCrate (name : str)
| OOut (dir : str)
| OExtra (suffix : str)
| OOther.
Definition with_path (name : str) (path : option str) : str := match path with Some p => name ++ lit "=" ++ p | None => name end.
(** The arguments by which an option is given. *)
Inductive written : opt -> list str -> Prop :=
| wr_extern name path : ~ In "="%char name -> (forall r, with_path name path <> lit "noprelude:" ++ r) ->
    written (OExtern name path) [lit "--extern"; with_path name path]
| wr_noprelude name path : ~ In "="%char name -> written (OExtern name path) [lit "--extern"; lit "noprelude:" ++ with_path name path]
| wr_crate n : written (OCrate n) [lit "--crate-name"; n]
| wr_out d : written (OOut d) [lit "--out-dir"; d]
| wr_extra1 v : written (OExtra v) [lit "-Cextra-filename=" ++ v]
| wr_extra2 v : written (OExtra v) [lit "-C"; lit "extra-filename=" ++ v]
| wr_codegen1 v : v <> [] -> v <> lit "extra-filename" -> (forall r, v <> lit "extra-filename=" ++ r) -> written OOther [lit "-C" ++ v]
| wr_codegen2 v : v <> lit "extra-filename" -> (forall r, v <> lit "extra-filename=" ++ r) -> written OOther [lit "-C"; v]
| wr_other a : ~ In a (map lit ["--extern"; "--crate-name"; "--out-dir"]%string) -> (forall r, a <> lit "-C" ++ r) -> written OOther [a].
(** An option whose value is missing. *)
Inductive dangling : list str -> Prop :=
| da_value a : In a (map lit ["--extern"; "--crate-name"; "--out-dir"; "-C"]%string) -> dangling [a]
| da_extra1 r : dangling (lit "-Cextra-filename" :: r)
| da_extra2 r : dangling (lit "-C" :: lit "extra-filename" :: r).

Definition crate_of (o : opt) : option str := match o with OCrate n => Some n | _ => None end.
Definition out_of (o : opt) : option str := match o with OOut d => Some d | _ => None end.
Definition extra_of (o : opt) : option str := match o with OExtra v => Some v | _ => None end.
Definition extern_of (o : opt) : option extern := match o with OExtern n p => Some (mkExtern n p) | _ => None end.
(** [latest f l r]: [r] is what the last element of [l] says that says anything. *)
Definition latest {A} (f : A -> option str) (l : list A) (r : option str) : Prop :=
  match r with
  | Some v => exists a x b, l = a ++ x :: b /\ f x = Some v /\ forall y, In y b -> f y = None
  | None => forall y, In y l -> f y = None
  end.
Fixpoint select {A B} (f : A -> option B) (l : list A) : list B :=
  match l with [] => [] | x :: l' => match f x with Some y => y :: select f l' | None => select f l' end end.

(** ** Traces *)
Definition commands (t : list event) : list (str * list str) :=
  select (fun e => match e with ECmd p _ a => Some (p, a) | _ => None end) t.
Definition printed (t : list event) : list str := select (fun e => match e with EOut s => Some s | _ => None end) t.
Definition touched (t : list event) : list str := select (fun e => match e with ETouch f => Some f | _ => None end) t.
Definition shown (t : list event) : list (str * list str) := select (fun e => match e with EVerbose p a => Some (p, a) | _ => None end) t.
Definition errors (t : list event) : list str := select (fun e => match e with EErr s => Some s | _ => None end) t.

Definition messages (t : list event) : list message := select (fun e => match e with ELog m => Some m | _ => None end) t.

(** ** The output of the build *)
(** One line on stderr: text of the build, or the report of a path by the wrapper. *)
Inductive note := NText (line : str) | NRlib (path : str) | NLl (path : str).
Definition note_line (n : note) : str :=
  match n with
  | NText line => line
  | NRlib path => lit "@CARGO_CALL_STACK:compiler_builtins_rlib_path@" ++ path
  | NLl path => lit "@CARGO_CALL_STACK:compiler_builtins_ll_path@" ++ path
  end.
Definition plain_line (l : str) : Prop := ~ In "010"%char l /\ forall r, l <> r ++ ["013"%char].
Definition text_line (l : str) : Prop := forall r, l <> lit "@CARGO_CALL_STACK:" ++ r.
Definition note_ok (n : note) : Prop := plain_line (note_line n) /\ match n with NText l => text_line l | _ => True end.
Definition rlib_of (n : note) : option str := match n with NRlib p => Some p | _ => None end.
Definition ll_of (n : note) : option str := match n with NLl p => Some p | _ => None end.
Definition text_of (n : note) : option str := match n with NText l => Some l | _ => None end.

(** The lines of a text: each ends with a newline, except perhaps the last; a carriage return before the newline belongs to it. *)
Inductive lines_of : str -> list str -> Prop :=
| lo_nil : lines_of [] []
| lo_last l : l <> [] -> ~ In "010"%char l -> lines_of l [l]
| lo_lf l s ls : ~ In "010"%char l -> (forall r, l <> r ++ ["013"%char]) -> lines_of s ls -> lines_of (l ++ "010"%char :: s) (l :: ls)
| lo_crlf l s ls : ~ In "010"%char l -> lines_of s ls -> lines_of (l ++ "013"%char :: "010"%char :: s) (l :: ls).
(** What a line is: the report of a path, or text. *)
Inductive says_note : str -> note -> Prop :=
| sn_rlib p : says_note (lit "@CARGO_CALL_STACK:compiler_builtins_rlib_path@" ++ p) (NRlib p)
| sn_ll p : says_note (lit "@CARGO_CALL_STACK:compiler_builtins_ll_path@" ++ p) (NLl p)
| sn_text l : (forall p, l <> lit "@CARGO_CALL_STACK:compiler_builtins_rlib_path@" ++ p) -> (forall p, l <> lit "@CARGO_CALL_STACK:compiler_builtins_ll_path@" ++ p) ->
    says_note l (NText l).

(** The report of the wrapper on an option. *)
Definition builtins_rlib (o : opt) : option note :=
  match o with OExtern n (Some p) => if str_eqb n (lit "compiler_builtins") then Some (NRlib p) else None | _ => None end.

(** ** The IR file *)
(** [ir_file crate name]: cargo's name for the IR of a crate is `crate-hash.ll`. *)
Definition ir_file (crate name : str) : Prop := exists h, name = crate ++ lit "-" ++ h ++ lit ".ll".
(** The name of the crate of a binary or example. *)
Definition crate_name (file : str) : str := map (fun c => if Ascii.eqb c "-" then "_"%char else c) file.

(** [chosen_file crate es name t]: the newest IR file of [crate] in the directory [es], the first one of them. *)
Definition chosen_file (crate : str) (es : list entry) (name : str) (t : N) : Prop :=
  exists a e b, es = a ++ e :: b /\ name = en_name e /\ en_time e = Ret t /\ ir_file crate name /\
    (forall x k, In x a -> ir_file crate (en_name x) -> en_time x = Ret k -> (k < t)%N) /\
    (forall x k, In x b -> ir_file crate (en_name x) -> en_time x = Ret k -> (k <= t)%N).

(** The name of an IR file is text, and the age of an IR file of [crate] is known. *)
Definition inspected (crate : str) (e : entry) : Prop :=
  forall stem, stem <> [] -> en_name e = stem ++ lit ".ll" -> en_utf8 e = true /\ (ir_file crate (en_name e) -> exists t, en_time e = Ret t).

(** ** Command lines of cargo *)
Record request := mkRequest {
  rq_target : option str;
  rq_features : option str;
  rq_all_features : bool;
  rq_example : option str;
  rq_bin : option str;
  rq_release : bool;
  rq_build_std : option str;
  rq_rustc : list str
}.
(** A value that looks like an option; a single dash does not. *)
Definition dashed (s : str) : bool := match s with c :: _ :: _ => Ascii.eqb c "-" | _ => false end.
(** How cargo reads its command line; an option that is given twice or a value that looks like an option is refused. *)
Fixpoint read_cargo (l : list str) (q : request) : option request :=
  match l with
  | [] => Some q
  | a :: l' =>
    if str_eqb a (lit "--") then Some (mkRequest (rq_target q) (rq_features q) (rq_all_features q) (rq_example q) (rq_bin q) (rq_release q) (rq_build_std q) l')
    else if str_eqb a (lit "--all-features") then
      read_cargo l' (mkRequest (rq_target q) (rq_features q) true (rq_example q) (rq_bin q) (rq_release q) (rq_build_std q) [])
    else if str_eqb a (lit "--release") then
      read_cargo l' (mkRequest (rq_target q) (rq_features q) (rq_all_features q) (rq_example q) (rq_bin q) true (rq_build_std q) [])
    else if str_eqb a (lit "--color=always") then read_cargo l' q
    else if str_eqb a (lit "-Zbuild-std") then
      read_cargo l' (mkRequest (rq_target q) (rq_features q) (rq_all_features q) (rq_example q) (rq_bin q) (rq_release q) (Some []) [])
    else match strip_prefix (lit "-Zbuild-std=") a with
    | Some v => read_cargo l' (mkRequest (rq_target q) (rq_features q) (rq_all_features q) (rq_example q) (rq_bin q) (rq_release q) (Some v) [])
    | None =>
      match l' with
      | [] => None
      | v :: l'' =>
        if dashed v then None
        else if str_eqb a (lit "--target") then
          match rq_target q with Some _ => None | None =>
            read_cargo l'' (mkRequest (Some v) (rq_features q) (rq_all_features q) (rq_example q) (rq_bin q) (rq_release q) (rq_build_std q) []) end
        else if str_eqb a (lit "--features") then
          match rq_features q with Some _ => None | None =>
            read_cargo l'' (mkRequest (rq_target q) (Some v) (rq_all_features q) (rq_example q) (rq_bin q) (rq_release q) (rq_build_std q) []) end
        else if str_eqb a (lit "--example") then
          match rq_example q with Some _ => None | None =>
            read_cargo l'' (mkRequest (rq_target q) (rq_features q) (rq_all_features q) (Some v) (rq_bin q) (rq_release q) (rq_build_std q) []) end
        else if str_eqb a (lit "--bin") then
          match rq_bin q with Some _ => None | None =>
            read_cargo l'' (mkRequest (rq_target q) (rq_features q) (rq_all_features q) (rq_example q) (Some v) (rq_release q) (rq_build_std q) []) end
        else None
      end
    end
  end.
Definition request0 : request := mkRequest None None false None None false None [].
(** What the user asks for. *)
Definition requested (a : args) (std : str) : request :=
  mkRequest (a_target a) (if a_all_features a then None else a_features a) (a_all_features a) (a_example a) (a_bin a) true (Some std)
    (map lit ["--emit=llvm-ir,obj"; "-C"; "embed-bitcode=yes"; "-C"; "lto=fat"]%string).
Definition plain_value (v : option str) : Prop := match v with Some v => dashed v = false | None => True end.
Definition plain_args (a : args) : Prop :=
  plain_value (a_target a) /\ (a_all_features a = false -> plain_value (a_features a)) /\ plain_value (a_example a) /\ plain_value (a_bin a).

(** The target for which cargo builds: the flag has precedence over the configuration file. *)
Definition built_for (flag config : option str) (host : str) : str :=
  match flag, config with Some t, _ => t | None, Some t => t | None, None => host end.

(** The toolchain is supported or the check is overridden. *)
Definition accepted (w : world) : Prop :=
  w_hash w = Some (lit "2b603f95a48f10f931a61dd208fe3e5ffd64e491") \/
  w_override w = Some (lit "I won't open issues about unsupported toolchains").

(** The target that the tool supposes. *)
Definition target_of (w : world) (config : option str) : str :=
  match config, a_target (w_args w) with Some t, _ => t | None, Some t => t | None, None => w_host w end.
(** [has_line s l]: [l] is a line of the text [s]. *)
Definition has_line (s l : str) : Prop :=
  exists a b, s = a ++ l ++ b /\ (a = [] \/ exists a', a = a' ++ ["010"%char]) /\
    (b = [] \/ (exists b', b = "010"%char :: b') \/ exists b', b = "013"%char :: "010"%char :: b').
(** A target without operating system, by the output of `rustc --print=cfg`. *)
Definition bare (cfg : str) : Prop := has_line cfg (lit "target_os=" ++ dquote :: lit "none" ++ [dquote]).
(** One of `--example` and `--bin` is given. *)
Definition one_artifact (a : args) (file : str) : Prop :=
  (a_example a = Some file /\ a_bin a = None) \/ (a_example a = None /\ a_bin a = Some file).

(** ** What is analysed *)
Definition last_def (l : list item) (n : str) (d : define) : Prop :=
  n = d_name d /\ exists a b, l = a ++ IDefine d :: b /\ forall d', In (IDefine d') b -> d_name d' <> n.
Definition last_decl (l : list item) (n : str) (s : option fnsig) : Prop :=
  exists a b, l = a ++ IDeclare n s :: b /\ forall s', ~ In (IDeclare n s') b.
Definition last_size (l : list (str * N)) (n : str) (k : N) : Prop :=
  exists a b, l = a ++ (n, k) :: b /\ forall k', ~ In (n, k') b.
(** The stack sizes in the objects of an archive that belong to compiler_builtins. *)
Definition builtins_object (m : member) : Prop :=
  mb_utf8 m = true /\ (exists a b, mb_id m = a ++ lit "compiler_builtins" ++ b) /\ exists a, mb_id m = a ++ lit ".o".
Inductive object_sizes (w : world) : list member -> list (str * N) -> Prop :=
| os_nil : object_sizes w [] []
| os_take m ms buf s r : builtins_object m -> mb_data m = Ret buf -> w_object w buf = Ret s -> object_sizes w ms r -> object_sizes w (m :: ms) (s ++ r)
| os_skip m ms r : ~ builtins_object m -> object_sizes w ms r -> object_sizes w (m :: ms) r.
(** [at_even l a s]: [s] is the last symbol of [l] whose address is [a] after clearing the lowest bit. *)
Definition at_even (l : list (N * symbol)) (a : N) (s : symbol) : Prop :=
  exists x a0 y, l = x ++ (a0, s) :: y /\ a = (2 * (a0 / 2))%N /\ forall a1 s1, In (a1, s1) y -> a <> (2 * (a1 / 2))%N.
(** The targets whose machine code is read. *)
Inductive target_kind : str -> target -> Prop :=
| tk_v6 : target_kind (lit "thumbv6m-none-eabi") Thumbv6m
| tk_v7 t : In t (map lit ["thumbv7m-none-eabi"; "thumbv7em-none-eabi"; "thumbv7em-none-eabihf"]%string) -> target_kind t Thumbv7m
| tk_other t : ~ In t (map lit ["thumbv6m-none-eabi"; "thumbv7m-none-eabi"; "thumbv7em-none-eabi"; "thumbv7em-none-eabihf"]%string) ->
    target_kind t OtherTarget.
(** [markers symtab ts]: [ts] are the mapping symbols of the symbol table; `$d` starts data, `$t` starts Thumb code. *)
Inductive markers : list (N * str) -> list (N * tag) -> Prop :=
| ma_nil : markers [] []
| ma_data a n r ts : markers r ts -> markers ((a, lit "$d" ++ n) :: r) ((a mod 2 ^ 32, TData)%N :: ts)
| ma_thumb a n r ts : markers r ts -> markers ((a, lit "$t" ++ n) :: r) ((a mod 2 ^ 32, TThumb)%N :: ts)
| ma_skip x r ts : (forall n, snd x <> lit "$d" ++ n) -> (forall n, snd x <> lit "$t" ++ n) -> markers r ts -> markers (x :: r) ts.
(** [tag_table symtab tags]: [tags] are these sorted by address, those with one address in the order of the symbol table. *)
Definition tag_table (symtab : list (N * str)) (tags : list (N * tag)) : Prop :=
  exists ts, markers symtab ts /\ StronglySorted N.le (map fst tags) /\
    forall a, filter (fun t => fst t =? a)%N tags = filter (fun t => fst t =? a)%N ts.
(** [unversioned u n]: the symbol [u] is [n], possibly with a version. *)
Definition unversioned (u n : str) : Prop :=
  no_double_at n /\ (u = n \/ exists v, u = n ++ lit "@@" ++ v /\ no_double_at (lit "@" ++ v)).
(** ** Paths *)
(** [inside d n f]: [f] is the path of [n] in the directory [d]; the empty path is the current directory. *)
Inductive inside (d n : str) : str -> Prop :=
| in_here : d = [] -> inside d n n
| in_slash d' : d = d' ++ lit "/" -> inside d n (d ++ n)
| in_dir : d <> [] -> (forall d', d <> d' ++ lit "/") -> inside d n (d ++ lit "/" ++ n).
(** [holder f d]: [d] is the directory that contains [f]. *)
Inductive holder : str -> str -> Prop :=
| ho_here n : ~ In "/"%char n -> holder n []
| ho_root n : ~ In "/"%char n -> holder (lit "/" ++ n) (lit "/")
| ho_dir d n : d <> [] -> ~ In "/"%char n -> holder (d ++ lit "/" ++ n) d.
(** The executable of the requested artifact, by the answer of cargo-project. *)
Definition executable (w : world) (file path : str) : Prop :=
  w_path w (match a_example (w_args w) with Some _ => true | None => false end) file (a_target (w_args w)) (w_host w) = Ret path.
(** Where the IR file is: beside an example, in the subdirectory `deps` for a binary. *)
Definition ir_dir (a : args) (exe_dir dir : str) : Prop :=
  match a_bin a with Some _ => inside exe_dir (lit "deps") dir | None => dir = exe_dir end.
(** A file of Rust source, by its name. *)
Definition rust_file (f : str) : Prop :=
  exists d stem, f = d ++ stem ++ lit ".rs" /\ stem <> [] /\ ~ In "/"%char stem /\ (d = [] \/ exists d', d = d' ++ lit "/").
(** [touches w r]: the source file that is touched before the build, if there is one: `src/main.rs`, else `src/lib.rs`, else the
    first file of Rust source in a walk through `src`, or through the package if there is no `src`. *)
Inductive touches (w : world) : option str -> Prop :=
| to_main f : inside (w_root w) (lit "src/main.rs") f -> w_set_times w f = Ret tt -> touches w (Some f)
| to_lib m f : inside (w_root w) (lit "src/main.rs") m -> w_set_times w m <> Ret tt ->
    inside (w_root w) (lit "src/lib.rs") f -> w_set_times w f = Ret tt -> touches w (Some f)
| to_walk m l src d seen f rest : inside (w_root w) (lit "src/main.rs") m -> w_set_times w m <> Ret tt ->
    inside (w_root w) (lit "src/lib.rs") l -> w_set_times w l <> Ret tt ->
    inside (w_root w) (lit "src") src -> d = (if w_exists w src then src else w_root w) ->
    w_walk w d = map Ret seen ++ Ret f :: rest -> (forall x, In x seen -> ~ rust_file x) -> rust_file f -> w_set_times w f = Ret tt -> touches w (Some f)
| to_none m l src d seen : inside (w_root w) (lit "src/main.rs") m -> w_set_times w m <> Ret tt ->
    inside (w_root w) (lit "src/lib.rs") l -> w_set_times w l <> Ret tt ->
    inside (w_root w) (lit "src") src -> d = (if w_exists w src then src else w_root w) ->
    w_walk w d = map Ret seen -> (forall x, In x seen -> ~ rust_file x) -> touches w None.
(** The text of a file. *)
Definition text_file (w : world) (f text : str) : Prop := w_read w f = Ret text /\ w_utf8 w text = true.

(** The text of [f] cannot be had, because of [e]. *)
Definition unread (w : world) (f e : str) : Prop :=
  w_read w f = Fail e \/ exists text, w_read w f = Ret text /\ w_utf8 w text = false /\ e = lit "stream did not contain valid UTF-8".
(** The IR file and the object file of the crate, when the executable and the directory can be read. *)
Definition ir_files (w : world) (file ll_path obj_path : str) : Prop :=
  exists path exe_dir dir elf es name t, executable w file path /\ holder path exe_dir /\ ir_dir (w_args w) exe_dir dir /\ w_read w path = Ret elf /\
    w_dir w dir = Ret (map Ret es) /\ (forall e, In e es -> inspected (crate_name file) e) /\ chosen_file (crate_name file) es (name ++ lit ".ll") t /\
    inside dir (name ++ lit ".ll") ll_path /\ inside dir (name ++ lit ".o") obj_path.
(** [complaint w file rlib ll f m]: the first file that cannot be read or parsed is [f]; [m] is the message. *)
Inductive complaint (w : world) (file rlib ll : str) : str -> str -> Prop :=
| cm_exe path e : executable w file path -> w_read w path = Fail e -> complaint w file rlib ll path (lit "couldn't open ELF file `" ++ path ++ lit "`: " ++ e)
| cm_ll f o e : ir_files w file f o -> unread w f e -> complaint w file rlib ll f (lit "couldn't read LLVM IR from `" ++ f ++ lit "`: " ++ e)
| cm_obj f o text e : ir_files w file f o -> text_file w f text -> w_read w o = Fail e -> complaint w file rlib ll o (lit "couldn't read object file `" ++ o ++ lit "`: " ++ e)
| cm_builtins f o text obj e : ir_files w file f o -> text_file w f text -> w_read w o = Ret obj -> unread w ll e ->
    complaint w file rlib ll ll (lit "couldn't read `compiler_builtins` LLVM IR from `" ++ ll ++ lit "`: " ++ e)
| cm_parse f o text obj btext line : ir_files w file f o -> text_file w f text -> w_read w o = Ret obj -> text_file w ll btext -> parse text = Failed line ->
    complaint w file rlib ll f (lit "failed to parse application's LLVM IR from `" ++ f ++ lit "`: BUG: failed to parse LLVM IR; please submit a cargo-call-stack bug report and attach the `.ll` file: Failure(""Eof in line " ++ show_nat line ++ lit """)")
| cm_parse_builtins f o text obj btext items line : ir_files w file f o -> text_file w f text -> w_read w o = Ret obj -> text_file w ll btext ->
    parse text = Parsed items -> parse btext = Failed line ->
    complaint w file rlib ll ll (lit "failed to parse `compiler_builtins` LLVM IR from `" ++ ll ++ lit "`: BUG: failed to parse LLVM IR; please submit a cargo-call-stack bug report and attach the `.ll` file: Failure(""Eof in line " ++ show_nat line ++ lit """)")
| cm_rlib f o text obj btext items bitems sizes e : ir_files w file f o -> text_file w f text -> w_read w o = Ret obj -> text_file w ll btext ->
    parse text = Parsed items -> parse btext = Parsed bitems -> w_object w obj = Ret sizes -> w_archive w rlib = Fail e ->
    complaint w file rlib ll rlib (lit "couldn't open `" ++ rlib ++ lit "`: " ++ e).

(** ** What stdout receives *)
(** [received fault text out e]: of [text] stdout accepts [out]; if a byte is refused, that is with the error [e]. *)
Inductive received (fault : nat -> option str) (text : str) : str -> option str -> Prop :=
| rc_all : (forall k, k < length text -> fault k = None) -> received fault text text None
| rc_part a c b e : text = a ++ c :: b -> (forall k, k < length a -> fault k = None) -> fault (length a) = Some e ->
    received fault text a (Some e).

(** ** The program *)
(** [analyses w target file rlib ll p]: [p] is the program in the executable, the newest IR file of [file], its object file and
    compiler_builtins. *)
Inductive analyses (w : world) (target file rlib ll : str) (p : prog) : Prop :=
| analyses_intro path exe_dir dir ll_path obj_path es name t text items btext bitems obj sizes ms more elf el :
    executable w file path -> holder path exe_dir -> ir_dir (w_args w) exe_dir dir ->
    w_dir w dir = Ret (map Ret es) -> (forall e, In e es -> inspected (crate_name file) e) ->
    chosen_file (crate_name file) es (name ++ lit ".ll") t -> inside dir (name ++ lit ".ll") ll_path -> inside dir (name ++ lit ".o") obj_path ->
    text_file w ll_path text -> parse text = Parsed items ->
    text_file w ll btext -> parse btext = Parsed bitems ->
    (forall n d, In (n, d) (pg_defines p) <-> last_def (items ++ bitems) n d) ->
    (forall n s, In (n, s) (pg_declares p) <-> last_decl (items ++ bitems) n s) ->
    w_read w obj_path = Ret obj -> w_object w obj = Ret sizes ->
    w_archive w rlib = Ret (map Ret ms) -> object_sizes w ms more ->
    (forall n k, In (n, k) (pg_sizes p) <-> last_size (sizes ++ more) n k) ->
    w_read w path = Ret elf -> w_executable w elf = Ret el ->
    Forall2 (fun u n => forall n', unversioned u n' -> n = n') (el_undefined el) (pg_undefined p) ->
    target_kind target (pg_target p) ->
    (is_thumb (pg_target p) = false -> pg_defined p = el_defined el) ->
    (is_thumb (pg_target p) = true -> (forall a s, In (a, s) (pg_defined p) <-> at_even (el_defined el) a s) /\
       (exists symtab, w_symtab w elf = Ret symtab /\ tag_table symtab (pg_tags p)) /\ pg_text p = w_text w elf) ->
    analyses w target file rlib ll p.

(** The same world, except that the symbol table of every ELF file is empty. *)
Definition without_symtab (w : world) : world :=
  mkWorld (w_wrapper w) (w_argv w) (w_rustc w) (w_hash w) (w_host w) (w_meta w) (w_override w) (w_args w) (w_project w) (w_root w) (w_cfg w) (w_exe w) (w_set_times w) (w_exists w)
    (w_walk w) (w_cargo w) (w_utf8 w) (w_path w) (w_dir w) (w_read w) (w_object w) (w_archive w) (w_executable w) (fun _ => Ret []) (w_text w) (w_defines_order w) (w_orders w) (w_fault w).
(** The symbol table of the executable of [file] cannot be read. *)
Definition no_symtab (w : world) (file : str) : Prop :=
  exists path elf, executable w file path /\ w_read w path = Ret elf /\ forall s, w_symtab w elf <> Ret s.

(** The tool is run by a user on files that exist: iteration orders are permutations, addresses and names of the symbol
    table are distinct. *)
Record sane (w : world) : Prop := {
  sane_user : w_wrapper w = false;
  sane_defines : forall m, Permutation (w_defines_order w m) m;
  sane_orders : fair (w_orders w);
  sane_elf : forall elf s, w_executable w elf = Ret s -> NoDup (map fst (el_defined s)) /\ NoDup (flat_map real_names (el_defined s))
}.
