(** Specification vocabulary for the log: what the tool has to announce about a program. *)
From Coq Require Import Sorted Permutation.
From Verif Require Import M_base M_stack M_graph M_names M_thumb M_ty M_parse M_build M_log S_names S_sig S_build S_run.

(** ** Texts *)
Definition tick (n : str) : str := lit "`" ++ n ++ lit "`".
Definition no_usage (n : str) : message := (Warn, lit "no stack usage information for " ++ tick n).
Definition no_type (n : str) : message := (Warn, lit "no type information for " ++ tick n).
Definition asm_note (code n : str) : message :=
  (Warn, lit "assuming that asm!(" ++ ["034"%char] ++ code ++ ["034"%char] ++ lit ") does *not* use the stack in " ++ tick n).
Definition no_information (n : str) : message := (Warn, lit "no stack information for " ++ tick n).
Definition lowering_note (f : str) : message := (Warn, lit "assuming that " ++ tick f ++ lit " directly lowers to machine code").
Definition override_note (n : str) (llvm ours : N) (why : str) : message :=
  (Warn, lit "LLVM reported that " ++ tick n ++ lit " uses " ++ show_N llvm ++ lit " bytes of stack but our analysis reported " ++ show_N ours ++
         lit " bytes; overriding LLVM's result (" ++ why ++ lit ")").
Definition blind_note (n : str) : message :=
  (Warn, tick n ++ lit " performs an indirect function call and there's no type information about the operation").
Definition no_text : message := (Error, lit ".text section not found").
Definition untyped_note : message :=
  (Warn, lit "the program contains untyped, external symbols (e.g. linked in from binary blobs); indirect function calls can not be bounded").
Definition no_callee (l : str) : message := (Error, lit "BUG? no callees for " ++ tick l).
Definition start_missing : message := (Error, lit "start point not found; the graph will not be filtered").
(** [text] shows the names. *)
Definition start_multiple (s text : str) : message := (Error, lit "multiple matches for " ++ tick s ++ lit ": " ++ text).
Definition no_figures : message := (Error, lit "The graph has zero stack usage information; skipping max stack usage analysis").

(** ** String literals of Rust *)
Definition hexdigit (c : ascii) (d : nat) : Prop := nth_error (lit "0123456789abcdef") d = Some c.
(** Number [k] in hexadecimal, without leading zeros. *)
Inductive hexadecimal (k : nat) : str -> Prop :=
| hx_one c : hexdigit c k -> hexadecimal k [c]
| hx_two c d a b : hexdigit c a -> hexdigit d b -> 0 < a -> k = 16 * a + b -> hexadecimal k [c; d].
Definition control (c : ascii) : Prop := nat_of_ascii c < 32 \/ nat_of_ascii c = 127.
Inductive literal_char (c : ascii) : str -> Prop :=
| lc_plain : ~ control c -> c <> "034"%char -> c <> "\"%char -> literal_char c [c]
| lc_escaped : c = "034"%char \/ c = "\"%char -> literal_char c ["\"%char; c]
| lc_named d : In (nat_of_ascii c, d) [(0, "0"%char); (9, "t"%char); (10, "n"%char); (13, "r"%char)] -> literal_char c ["\"%char; d]
| lc_code h : control c -> ~ In (nat_of_ascii c) [0; 9; 10; 13] -> hexadecimal (nat_of_ascii c) h -> literal_char c (lit "\u{" ++ h ++ lit "}").
Inductive literal (s : str) : str -> Prop :=
| lt_quoted l : Forall2 literal_char s l -> literal s ("034"%char :: concat l ++ ["034"%char]).
(** A vector of strings. *)
Inductive more_literals : list str -> str -> Prop :=
| ml_nil : more_literals [] (lit "]")
| ml_cons s l t r : literal s t -> more_literals l r -> more_literals (s :: l) (lit ", " ++ t ++ r).
Inductive literals : list str -> str -> Prop :=
| ls_nil : literals [] (lit "[]")
| ls_cons s l t r : literal s t -> more_literals l r -> literals (s :: l) (lit "[" ++ t ++ r).

(** ** What is announced *)
(** [part P m ms]: [ms] is the message [m] if [P] holds and nothing otherwise. *)
Inductive part (P : Prop) (m : message) : list message -> Prop :=
| pt_yes : P -> part P m [m]
| pt_no : ~ P -> part P m [].

(** About the symbol of function [i]. *)
Definition symbol_log (p : prog) (i : nat) (ms : list message) : Prop :=
  exists n a b, chosen p i n /\ ms = a ++ b /\
    part (is_thumb (pg_target p) = false /\ usage p i LUnknown) (no_usage n) a /\ part (untyped_fn p i) (no_type n) b.

(** [introduces p x f]: the call [x] makes the graph show [f], a symbol outside of the executable. *)
Definition introduces (p : prog) (x : nat * stmt) (f : str) : Prop :=
  (snd x = DirectCall f /\ ~ intrinsic f /\ f <> memcmp /\ (forall j, ~ live p f j)) \/
  (snd x = BitcastCall (Some f) /\ (forall j, ~ chosen p j f)).
(** Intrinsics which are taken for machine instructions, with a message. *)
Definition assumed (f : str) : Prop :=
  f = lit "llvm.x86.sse2.pause" \/
  exists pre r, f = lit pre ++ r /\
    In pre ["llvm.abs."; "llvm.bswap."; "llvm.ctlz."; "llvm.cttz."; "llvm.sadd.with.overflow.";
            "llvm.smul.with.overflow."; "llvm.ssub.with.overflow."; "llvm.uadd.sat."; "llvm.uadd.with.overflow."; "llvm.umax."; "llvm.umin.";
            "llvm.umul.with.overflow."; "llvm.usub.sat."; "llvm.usub.with.overflow."; "llvm.vector.reduce."; "llvm.x86.sse2.pmovmskb."]%string.
(** [news p done x m]: after the statements [done], the statement [x] is worth the message [m]. *)
Inductive news (p : prog) (done : list (nat * stmt)) : nat * stmt -> message -> Prop :=
| nw_asm i code n : chosen p i n -> (forall c, ~ In (i, Asm c) done) -> news p done (i, Asm code) (asm_note code n)
| nw_cast i f : (forall j, ~ chosen p j f) -> (forall y, In y done -> ~ introduces p y f) -> news p done (i, BitcastCall (Some f)) (no_information f)
| nw_lowered i f : is_thumb (pg_target p) = false -> assumed f -> (forall k, ~ In (k, DirectCall f) done) ->
    news p done (i, DirectCall f) (lowering_note f).
(** The messages for a list of statements. *)
Inductive stmts_log (p : prog) : list (nat * stmt) -> list (nat * stmt) -> list message -> Prop :=
| sl_nil done : stmts_log p done [] []
| sl_news done x rest m ms : news p done x m -> stmts_log p (done ++ [x]) rest ms -> stmts_log p done (x :: rest) (m :: ms)
| sl_quiet done x rest ms : (forall m, ~ news p done x m) -> stmts_log p (done ++ [x]) rest ms -> stmts_log p done (x :: rest) ms.

(** LLVM's size [m] of function [i] was replaced by [k]. *)
Inductive overridden (p : prog) (i : nat) (m k : N) : str -> Prop :=
| ov_asm addr size a : analysed p i addr size a -> llvm_size p i (Some m) -> stack a = Some k -> k <> m -> has_asm p i ->
    overridden p i m k (lit "function uses inline assembly")
| ov_outlined addr size a : analysed p i addr size a -> llvm_size p i (Some m) -> stack a = Some k -> k <> m -> ~ has_asm p i -> m = 0%N -> outlined p i ->
    overridden p i m k (lit "function was produced by LLVM's function outlining pass").
Inductive override_log (p : prog) (i : nat) (n : str) : list message -> Prop :=
| or_yes m k why : overridden p i m k why -> override_log p i n [override_note n m k why]
| or_no : (forall m k why, ~ overridden p i m k why) -> override_log p i n [].
(** About the machine code of function [i]. *)
Definition code_log (p : prog) (i : nat) (ms : list message) : Prop :=
  exists n a b c, chosen p i n /\ ms = a ++ b ++ c /\ override_log p i n a /\ part (usage p i LUnknown) (no_usage n) b /\ part (blind p i) (blind_note n) c.
Definition codes_log (p : prog) (ms : list message) : Prop :=
  (is_thumb (pg_target p) = false /\ ms = []) \/
  (is_thumb (pg_target p) = true /\ pg_text p = None /\ ms = [no_text]) \/
  (is_thumb (pg_target p) = true /\ pg_text p <> None /\ exists mss, Forall2 (code_log p) (seq 0 (length (pg_defined p))) mss /\ ms = concat mss).

(** About the function pointer type [s] that is called. *)
Definition sig_log (p : prog) (void : option str) (s : fnsig) (ms : list message) : Prop :=
  exists l a b, sig_label void s l /\ ms = a ++ b /\
    part ((exists v, void = Some v /\ s = fmt_sig (TAlias v)) /\ forall j r, ~ typed_by_def p j (fmt_sig r)) (no_callee (show_sig s)) a /\
    part (~ untyped p /\ forall j, ~ pointee p void s j) (no_callee l) b.
Definition sigs_log (p : prog) (void : option str) (ms : list message) : Prop :=
  exists sigs mss, NoDup sigs /\ (forall s, In s sigs <-> called_sig p s) /\ Forall2 (sig_log p void) sigs mss /\ ms = concat mss.

(** Everything that is announced while the graph is built. *)
Definition build_notes (p : prog) (ms : list message) : Prop :=
  exists void a tr b c d e,
    match void with Some v => true_void p v | None => forall v, ~ true_void p v end /\
    ms = concat a ++ b ++ c ++ d ++ e /\ Forall2 (symbol_log p) (seq 0 (length (pg_defined p))) a /\
    trace p (pg_defines p) tr /\ stmts_log p [] tr b /\ codes_log p c /\ part (untyped p) untyped_note d /\ sigs_log p void e.

(** ** Runs that stop while the graph is built *)
(** The statements [l] are understood. *)
Definition fine (p : prog) (l : list (nat * stmt)) : Prop := forall pre i st post, l = pre ++ (i, st) :: post -> stmt_ok p pre st.
(** The machine code of function [i] can be decoded, and what is found there does not contradict itself. *)
Definition readable (p : prog) (i : nat) (x : N * symbol) (addr size : N) (a : st) : Prop :=
  (exists n ns, sy_names (snd x) = n :: ns /\ mapping_symbol n = false) /\ analysed p i addr size a /\
  (forall k, stack a = Some k -> (k <> 0%N <-> modifies_sp a = true)).
(** About the machine code of function [i], if it is not understood. *)
Inductive broken_log (p : prog) (i : nat) (x : N * symbol) : list message -> Prop :=
| bk_code : (forall addr size a, ~ readable p i x addr size a) -> broken_log p i x []
| bk_sizes addr size a n ms : readable p i x addr size a -> ~ agreed p i a -> chosen p i n -> override_log p i n ms -> broken_log p i x ms
| bk_branches addr size a ms : settled p i x addr size a -> ~ resolved p addr size a -> code_log p i ms -> broken_log p i x ms.
(** What has been announced when the construction of the graph stops: everything up to the first thing that is not understood. *)
Inductive stopped (p : prog) : list message -> Prop :=
| sp_symbol k x a : nth_error (pg_defined p) k = Some x -> real_names x = [] -> Forall2 (symbol_log p) (seq 0 k) a -> stopped p (concat a)
| sp_stmt a pre i st post b : Forall2 (symbol_log p) (seq 0 (length (pg_defined p))) a ->
    trace p (pg_defines p) (pre ++ (i, st) :: post) -> fine p pre -> ~ stmt_ok p pre st -> stmts_log p [] pre b -> stopped p (concat a ++ b)
| sp_code a tr b k x c d : Forall2 (symbol_log p) (seq 0 (length (pg_defined p))) a -> trace p (pg_defines p) tr -> fine p tr -> stmts_log p [] tr b ->
    is_thumb (pg_target p) = true -> pg_text p <> None -> nth_error (pg_defined p) k = Some x -> Forall2 (code_log p) (seq 0 k) c ->
    (forall i y, i < k -> nth_error (pg_defined p) i = Some y -> code_ok p i y) -> ~ code_ok p k x -> broken_log p k x d -> stopped p (concat a ++ b ++ concat c ++ d).
(** What is announced before the symbol table is read: on the symbols, if they have names, and on the statements, up to the first that is
    not understood. *)
Inductive told_early (p : prog) : list message -> Prop :=
| te_symbol k x a : nth_error (pg_defined p) k = Some x -> real_names x = [] -> Forall2 (symbol_log p) (seq 0 k) a -> told_early p (concat a)
| te_stmt a pre i st post b : Forall2 (symbol_log p) (seq 0 (length (pg_defined p))) a ->
    trace p (pg_defines p) (pre ++ (i, st) :: post) -> fine p pre -> ~ stmt_ok p pre st -> stmts_log p [] pre b -> told_early p (concat a ++ b)
| te_all a tr b : Forall2 (symbol_log p) (seq 0 (length (pg_defined p))) a -> trace p (pg_defines p) tr -> fine p tr -> stmts_log p [] tr b -> told_early p (concat a ++ b).

(** ** The start point *)
(** The order of strings, byte by byte. *)
Inductive str_le : str -> str -> Prop :=
| le_nil b : str_le [] b
| le_less c a d b : nat_of_ascii c < nat_of_ascii d -> str_le (c :: a) (d :: b)
| le_same c a b : str_le a b -> str_le (c :: a) (c :: b).
Inductive start_log (demangle : str -> str) (p : prog) : option str -> list message -> Prop :=
| st_none : start_log demangle p None []
| st_name s : shown_name p s -> start_log demangle p (Some s) []
| st_hash s n : ~ shown_name p s -> (forall m, shown_name p m /\ hashed_start demangle s m <-> m = n) -> start_log demangle p (Some s) []
| st_missing s : ~ shown_name p s -> (forall m, shown_name p m -> ~ hashed_start demangle s m) -> start_log demangle p (Some s) [start_missing]
| st_multiple s hits text : literals hits text -> ~ shown_name p s -> 2 <= length hits -> NoDup hits -> Sorted str_le hits ->
    (forall m, In m hits <-> shown_name p m /\ hashed_start demangle s m) ->
    start_log demangle p (Some s) [start_multiple s text; start_missing].

(** Everything that is announced. *)
Definition notes (demangle : str -> str) (p : prog) (start : option str) (ms : list message) : Prop :=
  exists a b c, ms = a ++ b ++ c /\ build_notes p a /\ start_log demangle p start b /\ part (~ measured p) no_figures c.

(** [once m ms]: [m] is announced, and only once. *)
Definition once (m : message) (ms : list message) : Prop := exists a b, ms = a ++ m :: b /\ ~ In m (a ++ b).
(** [first_asm p i code]: [code] is the first inline assembly of function [i]. *)
Definition first_asm (p : prog) (i : nat) (code : str) : Prop :=
  exists tr pre post, trace p (pg_defines p) tr /\ tr = pre ++ (i, Asm code) :: post /\ forall c, ~ In (i, Asm c) pre.
(** [first_cast p f]: a call under a cast is the first call that makes the graph show [f]. *)
Definition first_cast (p : prog) (f : str) : Prop :=
  exists tr pre i post, trace p (pg_defines p) tr /\ tr = pre ++ (i, BitcastCall (Some f)) :: post /\ forall y, In y pre -> ~ introduces p y f.
(** [announces demangle p start void m]: [m] is a message about the program. *)
Inductive announces (demangle : str -> str) (p : prog) (start void : option str) : message -> Prop :=
| an_usage i n : chosen p i n -> usage p i LUnknown -> (is_thumb (pg_target p) = true -> pg_text p <> None) -> announces demangle p start void (no_usage n)
| an_type i n : chosen p i n -> untyped_fn p i -> announces demangle p start void (no_type n)
| an_asm i code n : chosen p i n -> first_asm p i code -> announces demangle p start void (asm_note code n)
| an_cast f : (forall j, ~ chosen p j f) -> first_cast p f -> announces demangle p start void (no_information f)
| an_lowered i f : is_thumb (pg_target p) = false -> body p i (DirectCall f) -> assumed f -> announces demangle p start void (lowering_note f)
| an_override i n m k why : chosen p i n -> overridden p i m k why -> announces demangle p start void (override_note n m k why)
| an_blind i n : chosen p i n -> blind p i -> announces demangle p start void (blind_note n)
| an_text : is_thumb (pg_target p) = true -> pg_text p = None -> announces demangle p start void no_text
| an_untyped : untyped p -> announces demangle p start void untyped_note
| an_fmt v s : void = Some v -> s = fmt_sig (TAlias v) -> called_sig p s -> (forall j r, ~ typed_by_def p j (fmt_sig r)) -> announces demangle p start void (no_callee (show_sig s))
| an_callees s l : called_sig p s -> sig_label void s l -> ~ untyped p -> (forall j, ~ pointee p void s j) -> announces demangle p start void (no_callee l)
| an_start b m : start_log demangle p start b -> In m b -> announces demangle p start void m
| an_figures : ~ measured p -> announces demangle p start void no_figures.

(** [quiet_start demangle p start]: the start point is found. *)
Definition quiet_start (demangle : str -> str) (p : prog) (start : option str) : Prop :=
  forall s, start = Some s -> shown_name p s \/ exists n, forall m, shown_name p m /\ hashed_start demangle s m <-> m = n.
(** There is nothing to tell about the program. *)
Record unremarkable (demangle : str -> str) (p : prog) (start void : option str) : Prop := {
  un_text : is_thumb (pg_target p) = true -> pg_text p <> None;
  un_usage : forall i, i < length (pg_defined p) -> exists k, usage p i (LExact k);
  un_typed : ~ untyped p;
  un_asm : forall i, ~ has_asm p i;
  un_cast : forall f, first_cast p f -> exists j, chosen p j f;
  un_lowered : forall i f, is_thumb (pg_target p) = false -> body p i (DirectCall f) -> ~ assumed f;
  un_kept : forall i m k why, ~ overridden p i m k why;
  un_blind : forall i, ~ blind p i;
  un_fmt : forall v, void = Some v -> called_sig p (fmt_sig (TAlias v)) -> ~ forall j r, ~ typed_by_def p j (fmt_sig r);
  un_start : quiet_start demangle p start;
  un_figures : measured p
}.
